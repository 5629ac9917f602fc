(** * ProgProofs: native lines inside programs (proofs only). *)

From Coq Require Import Lia.
From Verif Require Import Lib SpecIsa StrLemmas NumLemmas TextProofs OperandProofs NativeProofs LineProofs ScanProofs SpecText SpecProgram.

(** ** Labels *)

Lemma label_char_facts c : label_char c = true -> special_char c = false /\ is_ws c = false /\ c <> "-"%char.
Proof. destruct c as [[] [] [] [] [] [] [] []]; vm_compute; intros H; try discriminate; repeat split; discriminate. Qed.
Lemma identifier_facts n : identifier n -> good_label n /\ plain n /\ no_ws n /\ match n with c :: _ => c <> "-"%char | [] => False end.
Proof.
  intros [H F]. split; [exact H|]. rewrite forallb_forall in F. split; [|split].
  - apply plain_in. intros c I. now apply label_char_facts, F.
  - unfold no_ws. apply forallb_forall. intros c I. apply negb_true_iff. now apply label_char_facts, F.
  - destruct n; [destruct H|]. apply label_char_facts, F. now left.
Qed.

Definition comment_char (c : ascii) : bool := Ascii.eqb c ";" || Ascii.eqb c "/".
Lemma before_comment_id s : (forall c, In c s -> comment_char c = false) -> before_comment s = s.
Proof.
  induction s as [|c s IH]; intros H; [reflexivity|]. cbn [before_comment].
  assert (starts_comment (c :: s) = false) as ->.
  { assert (C := H c (or_introl eq_refl)). destruct c as [[] [] [] [] [] [] [] []]; try reflexivity; discriminate C. }
  rewrite IH; [reflexivity|]. intros d I. apply H. now right.
Qed.
Lemma clean_label n l : identifier n -> label_line n l -> clean l = n ++ #":".
Proof.
  intros I (a & b & A & B & ->). destruct (identifier_facts n I) as (G & P & W & _).
  assert (N : n <> []) by (destruct n; [destruct G|discriminate]).
  unfold clean.
  assert (T : trim (a ++ n ++ #":" ++ b) = n ++ #":").
  { rewrite (app_assoc n). rewrite trim_ws_around; auto. apply trim_tight.
    - destruct n as [|c n]; [congruence|]. cbn. apply no_ws_tight_start in W. exact W.
    - unfold tight_end. rewrite rev_app_distr. reflexivity. }
  rewrite T. apply before_comment_id. intros c J. apply in_app_or in J as [J|[<-|[]]]; [|reflexivity].
  apply (proj1 (plain_in n)) in J; [|exact P]. destruct c as [[] [] [] [] [] [] [] []]; try reflexivity; discriminate J.
Qed.

Lemma role_blank l : blank_line l -> role_of l = Empty.
Proof. intros B. unfold role_of. now rewrite (clean_blank l B). Qed.
Lemma role_label_line n l : identifier n -> label_line n l -> role_of l = Defines n.
Proof.
  intros I L. unfold role_of. rewrite (clean_label n l I L).
  assert (E : ends_with #":" (n ++ #":") = true) by (unfold ends_with; rewrite rev_app_distr; reflexivity).
  assert (F : firstn (List.length (n ++ #":") - 1) (n ++ #":") = n) by apply (drop_last_snoc n ":").
  destruct (n ++ #":") as [|c r] eqn:D; [destruct n; discriminate|]. now rewrite E, F.
Qed.
Lemma role_native c : clean c <> [] -> ends_with #":" (clean c) = false -> role_of c = Instruction.
Proof. intros N E. unfold role_of. destruct (clean c); [congruence|]. now rewrite E. Qed.

(** ** Labels that no number can be mistaken for *)

Definition sober (s : pstate) : Prop :=
  forall n k, In (n, k) (p_labels s) -> good_label n /\ match n with c :: _ => c <> "-"%char | [] => False end /\ is_local n = false.
Lemma sober_ok s : sober s -> labels_ok s.
Proof. intros H l k A. apply assoc_in in A. destruct (H l k A) as (G & M & _). destruct l; [exact G|auto]. Qed.
Lemma sober_bump s : sober s -> sober (bump s).
Proof. exact (fun H => H). Qed.

(** ** A line in a state *)

(** The state after the lines [done] of the program. *)
Definition after (e : env) (done : list str) (s : pstate) : Prop :=
  p_line s = List.length done /\ (List.length (p_insts s) <= List.length done)%nat.

Lemma after_ready e done raw rest s : e_input e = done ++ raw :: rest -> after e done s -> ready e (bump s) raw.
Proof.
  intros E [L I]. split; cbn.
  - rewrite L, E, Nat.sub_0_r, nth_error_app2, Nat.sub_diag by lia. reflexivity.
  - intros H. rewrite L. destruct (p_insts s); [congruence|]. cbn in I. lia.
Qed.

(** Instructions that label resolution leaves alone. *)
Definition calm (i : inst) : Prop :=
  match i with
  | IImm _ _ _ (Short _) _ | IImm _ _ _ (Long _) _ | IReg _ _ _ _ _ _ | IJump _ (TAddress _) _ => True
  | _ => False
  end.
Lemma settled_calm i : settled i -> calm i.
Proof. destruct i as [op rs rt im b|op t b|op rs rt rd sa b|w]; cbn; try easy; destruct im; easy. Qed.
Lemma adjust_calm e s i n x : calm x -> adjust_one e s i n x = Ok (x, []).
Proof. destruct x as [op rs rt im b|op t b|op rs rt rd sa b|w]; cbn; try easy; [destruct im|destruct t]; easy. Qed.
Lemma adjust_all_settled e s l i : Forall (fun x => calm (snd x)) l -> adjust_from e s i l = Ok (map snd l, []).
Proof.
  intros F. revert i. induction F as [|[n x] l H _ IH]; intros i; [reflexivity|]. cbn [adjust_from].
  rewrite adjust_calm by exact H. cbn [obind]. rewrite IH. reflexivity.
Qed.
Lemma assemble_encodes oc l ws : Forall2 encodes l ws -> exists out, @assemble_insts perror oc l = Ok out /\ map inst_bytes out = ws.
Proof.
  induction 1 as [|i w l ws H _ IH]; [exists []; auto|]. destruct (H oc) as (i' & A & B). destruct IH as (out & C & D).
  exists (i' :: out). cbn [assemble_insts]. rewrite A. cbn [obind]. rewrite C. cbn [obind map]. split; [reflexivity|congruence].
Qed.

(** A line whose instruction needs no other line: it always stands for the words [ws]. *)
Definition line_ok (raw : str) (ws : list Z) : Prop :=
  clean raw <> [] /\ ends_with #":" (clean raw) = false
  /\ forall e s, context e s raw -> exists w i, parse_inst e s (clean raw) = (w, Ok i) /\ calm i /\ encodes i ws.
Lemma native_line_ok f os raw : In f (isa ++ idioms) -> native_line f os raw -> no_nl raw ->
  Forall2 notation_fits (f_ops f) os -> case_condition f os raw -> line_ok raw [word f os].
Proof.
  intros I L N W C.
  destruct (native_parse (mk_env [] 0 [] false (fun x => x)) init_state f os raw (table_name f I) N L W) as (_ & _ & _ & _ & _ & A & B & _).
  split; [exact A|]. split; [exact B|]. intros e s Cx.
  destruct (native_line_parse e s f os raw I L N W C Cx) as (_ & _ & i & P & Se & En).
  eexists. exists i. split; [exact P|]. split; [now apply settled_calm|exact En].
Qed.
(** The same for one parser (build profile and symbols). *)
Definition line_at (e : env) (raw : str) (ws : list Z) : Prop :=
  clean raw <> [] /\ ends_with #":" (clean raw) = false
  /\ forall s, context e s raw -> exists w i, parse_inst e s (clean raw) = (w, Ok i) /\ calm i /\ encodes i ws.
Lemma line_ok_at e raw ws : line_ok raw ws -> line_at e raw ws.
Proof. intros (A & B & C). split; [exact A|]. split; [exact B|]. intros s. apply C. Qed.
Inductive simple_at (e : env) : str -> list Z -> Prop :=
| sa_blank l : blank_line l -> simple_at e l []
| sa_label n l : identifier n -> label_line n l -> simple_at e l []
| sa_code l ws : line_at e l ws -> simple_at e l ws.
Inductive simple_line : str -> list Z -> Prop :=
| si_blank l : blank_line l -> simple_line l []
| si_label n l : identifier n -> label_line n l -> simple_line l []
| si_code l ws : line_ok l ws -> simple_line l ws.
Lemma simple_line_at e l ws : simple_line l ws -> simple_at e l ws.
Proof. intros []; [now apply sa_blank|now apply sa_label with n|]. apply sa_code. now apply line_ok_at. Qed.
Lemma source_simple l ws : no_nl l -> source_line l ws -> simple_line l ws.
Proof.
  intros N H. revert N. destruct H as [l B|n l I L|f os l I L W C]; intros N; [now apply si_blank|now apply si_label with n|].
  apply si_code. now apply native_line_ok.
Qed.

(** ** Straight-line programs *)

Lemma straight_scan e ls wss : no_digit_symbols e -> Forall2 (simple_at e) ls wss -> Forall no_nl ls ->
  forall done s, e_input e = done ++ ls -> after e done s -> sober s -> p_errors s = [] ->
  NoDup (map fst (p_labels s ++ label_table (List.length (p_insts s)) ls)) ->
  exists s' new, scan_lines e s ls = Ok s' /\ p_errors s' = [] /\ p_insts s' = p_insts s ++ new
    /\ Forall (fun x => calm (snd x)) new
    /\ exists bl, Forall2 encodes (map snd new) bl /\ List.concat bl = List.concat wss.
Proof.
  intros Sy F N. revert N. induction F as [|l ws ls wss H F IH]; intros N done s Ei Af So Er Nd.
  - exists s, []. cbn. rewrite app_nil_r. repeat split; auto. exists []. split; [constructor|reflexivity].
  - inversion N as [|? ? Nl Nls]; subst. cbn [scan_lines].
    assert (Ei' : e_input e = (done ++ [l]) ++ ls) by (rewrite <- app_assoc; exact Ei).
    destruct Af as [Af1 Af2].
    assert (Step : exists s1 new1, step_line e s l = Ok s1 /\ after e (done ++ [l]) s1 /\ sober s1 /\ p_errors s1 = []
      /\ NoDup (map fst (p_labels s1 ++ label_table (List.length (p_insts s1)) ls))
      /\ p_insts s1 = p_insts s ++ new1 /\ Forall (fun x => calm (snd x)) new1
      /\ exists bl, Forall2 encodes (map snd new1) bl /\ List.concat bl = ws).
    { destruct H as [l B|n l Id L|l ws Lk].
      - assert (R := role_blank l B). exists (bump s), [].
        cbn [label_table] in Nd. rewrite R in Nd.
        split; [apply step_of_view; [exact Nl|now apply st_empty]|].
        split; [split; cbn; rewrite ?app_length; cbn; lia|]. split; [exact So|]. split; [exact Er|]. split; [exact Nd|].
        cbn. rewrite app_nil_r. repeat split; auto. exists []. split; [constructor|reflexivity].
      - assert (R := role_label_line n l Id L). destruct (identifier_facts n Id) as (G & _ & _ & M).
        assert (Lo : label_ok s n).
        { split; [exact G|]. destruct (assoc n (p_labels s)) as [k|] eqn:As; [|reflexivity]. exfalso.
          apply assoc_in in As. cbn [label_table] in Nd. rewrite R in Nd.
          destruct (is_local n) eqn:Lc.
          - destruct (So n k As) as (_ & _ & X). congruence.
          - rewrite map_app in Nd. cbn [map fst] in Nd. apply NoDup_remove_2 in Nd. apply Nd.
            apply in_or_app. left. now apply (in_map fst) in As. }
        cbn [label_table] in Nd. rewrite R in Nd. destruct (is_local n) eqn:Lc.
        + eexists. exists []. split; [apply step_of_view; [exact Nl|apply (st_local e s l n R Lc Lo)]|].
          split; [split; cbn; rewrite ?app_length; cbn; lia|]. split; [exact So|]. split; [exact Er|]. split; [exact Nd|].
          cbn. rewrite app_nil_r. repeat split; auto. exists []. split; [constructor|reflexivity].
        + eexists. exists []. split; [apply step_of_view; [exact Nl|apply (st_global e s l n R Lc Lo)]|].
          split; [split; cbn; rewrite ?app_length; cbn; lia|].
          split; [intros n' k' I; cbn in I; apply in_app_or in I as [I|[I|[]]]; [eauto|injection I as <- <-; auto]|].
          split; [exact Er|]. split; [cbn; rewrite <- app_assoc; exact Nd|].
          cbn. rewrite app_nil_r. repeat split; auto. exists []. split; [constructor|reflexivity].
      - destruct Lk as (Ne & Ec & Lk). destruct (Lk (bump s)) as (w0 & i & P & Se & En).
        { split; [now apply (after_ready e done l ls)|]. split; [now apply sober_ok|exact Sy]. }
        eexists. exists [(S (p_line s), i)]. split; [apply step_of_view; [exact Nl|apply st_inst; [now apply role_native|exact P]]|].
        assert (R := role_native l Ne Ec).
        cbn [label_table] in Nd. rewrite R in Nd.
        split; [split; cbn; rewrite ?app_length; cbn; lia|]. split; [exact So|]. split; [exact Er|].
        split; [cbn; rewrite app_length, Nat.add_1_r; exact Nd|]. split; [reflexivity|]. split; [repeat constructor; exact Se|].
        exists [ws]. split; [repeat constructor; exact En|apply app_nil_r]. }
    destruct Step as (s1 & new1 & St & A1 & S1 & E1 & N1 & I1 & F1 & bl1 & B1 & C1).
    rewrite St. cbn [obind]. destruct (IH Nls (done ++ [l]) s1 Ei' A1 S1 E1 N1) as (s' & new & Sc & E' & I' & F' & bl & B' & C').
    exists s', (new1 ++ new). repeat split; auto.
    + rewrite I', I1. now rewrite app_assoc.
    + apply Forall_app. auto.
    + exists (bl1 ++ bl). rewrite map_app, List.concat_app. split; [now apply Forall2_app|]. cbn [List.concat]. congruence.
Qed.

Lemma nl_of_lines input : Forall no_nl (lines input).
Proof. apply Forall_forall. intros l. apply lines_no_nl. Qed.

Theorem simple_program_at rt m input wss : named_symbols (m_syms m) ->
  Forall2 (simple_at (mk_parser rt m input)) (lines input) wss -> distinct_labels (lines input) ->
  exists out, assemble rt m input = Ok out /\ get_bytes out = List.concat wss.
Proof.
  intros Sy F D. set (e := mk_parser rt m input).
  destruct (straight_scan e (lines input) wss Sy F (nl_of_lines input) [] init_state) as (s & new & S & E & I & Se & bl & B & C); auto.
  - split; cbn; lia.
  - intros n k [].
  - cbn in I. assert (A : adjust_from e (final e s) 0 (p_insts s) = Ok (map snd new, [])) by (rewrite I; now apply adjust_all_settled).
    destruct (assemble_encodes (rt_oc rt) _ _ B) as (out & O & W).
    exists out. split; [apply assemble_ok; exists s, (map snd new); now constructor|].
    rewrite <- C, <- W. unfold get_bytes. rewrite flat_map_concat_map. reflexivity.
Qed.

Theorem simple_program rt m input wss : named_symbols (m_syms m) ->
  Forall2 simple_line (lines input) wss -> distinct_labels (lines input) ->
  exists out, assemble rt m input = Ok out /\ get_bytes out = List.concat wss.
Proof.
  intros Sy F D. apply simple_program_at; auto. revert F. generalize (mk_parser rt m input) as e, (lines input) as ls. intros e ls F. clear D.
  induction F; constructor; auto. now apply simple_line_at.
Qed.

Theorem straight_line rt m input wss : named_symbols (m_syms m) ->
  Forall2 source_line (lines input) wss -> distinct_labels (lines input) ->
  exists out, assemble rt m input = Ok out /\ get_bytes out = List.concat wss.
Proof.
  intros Sy F D. apply simple_program; auto. assert (N := nl_of_lines input).
  revert N F. generalize (lines input) as ls. intros ls N F. clear D.
  induction F as [|l ws ls wss H F IH]; constructor; inversion N; subst; auto. now apply source_simple.
Qed.

Lemma instruction_count_le ls : (instruction_count ls <= List.length ls)%nat.
Proof. unfold instruction_count. induction ls as [|l ls IH]; cbn; [lia|]. destruct (is_instruction l); cbn; lia. Qed.

(** ** Native lines inside any program *)

Theorem code_anywhere_at rt m input out l1 raw l2 ws : named_symbols (m_syms m) ->
  assemble rt m input = Ok out -> lines input = l1 ++ raw :: l2 -> no_minus_labels (lines input) ->
  line_at (mk_parser rt m input) raw ws ->
  exists i, nth_error out (instruction_count l1) = Some i /\ inst_bytes i = ws.
Proof.
  intros Sy A Ei Mi (Ne & Ec & Lk). apply assemble_ok in A as (s & is1 & As). set (e := mk_parser rt m input) in *.
  assert (N := nl_of_lines input).
  destruct (assembled_at e _ s is1 out l1 raw l2 N As Ei) as (s1 & S1 & E1 & L1 & P1 & T1 & X).
  destruct (assembled_labels e _ s is1 out N As) as (_ & _ & G & _).
  assert (Lb : labels_ok (bump s1)).
  { intros n k I. cbn in I. rewrite T1 in I. apply assoc_in in I.
    assert (I' : In (n, k) (label_table 0 (lines input))) by (rewrite Ei, label_table_app; apply in_or_app; now left).
    assert (Gn := G n k I'). assert (Mn := Mi n k I'). destruct n as [|c n]; [exact Gn|]. split; [exact Gn|].
    intros ->. discriminate Mn. }
  assert (Rd : ready e (bump s1) raw).
  { apply (after_ready e l1 raw l2); [exact Ei|]. split; [exact P1|]. rewrite L1. apply instruction_count_le. }
  destruct (Lk (bump s1)) as (w0 & i & P & Se & En).
  { split; [exact Rd|]. split; [exact Lb|exact Sy]. }
  rewrite (role_native raw Ne Ec) in X. destruct X as (w & i0 & i1 & i' & o1 & o2 & P' & _ & Ad & Ai & -> & Lo & _).
  rewrite P in P'. injection P' as _ <-. rewrite adjust_calm in Ad by exact Se. injection Ad as <-.
  destruct (En (e_oc e)) as (i2 & Ai2 & B). rewrite Ai in Ai2. injection Ai2 as <-.
  exists i'. split; [|exact B]. rewrite nth_error_app2 by lia. rewrite Lo, Nat.sub_diag. reflexivity.
Qed.
Theorem code_anywhere rt m input out l1 raw l2 ws : named_symbols (m_syms m) ->
  assemble rt m input = Ok out -> lines input = l1 ++ raw :: l2 -> no_minus_labels (lines input) ->
  line_ok raw ws ->
  exists i, nth_error out (instruction_count l1) = Some i /\ inst_bytes i = ws.
Proof. intros Sy A Ei Mi Lk. eapply code_anywhere_at; eauto. now apply line_ok_at. Qed.
Theorem native_anywhere rt m input out l1 raw l2 f os : named_symbols (m_syms m) ->
  assemble rt m input = Ok out -> lines input = l1 ++ raw :: l2 -> no_minus_labels (lines input) ->
  In f (isa ++ idioms) -> native_line f os raw -> Forall2 notation_fits (f_ops f) os -> case_condition f os raw ->
  exists i, nth_error out (instruction_count l1) = Some i /\ inst_bytes i = [word f os].
Proof.
  intros Sy A Ei Mi If L W C. eapply code_anywhere; eauto. apply native_line_ok; auto.
  apply (lines_no_nl input). rewrite Ei. apply in_or_app. right. now left.
Qed.

(** ** One-line programs *)

Lemma one_line rt m l ws : named_symbols (m_syms m) -> no_nl l -> line_ok l ws ->
  exists out, assemble rt m l = Ok out /\ get_bytes out = ws.
Proof.
  intros Sy N Lk. assert (E : lines l = [l]).
  { apply lines_single; [exact N|]. intros ->. destruct Lk as (H & _). now apply H. }
  destruct (simple_program rt m l [ws] Sy) as (out & A & G).
  - rewrite E. constructor; [now apply si_code|constructor].
  - unfold distinct_labels. rewrite E. cbn [label_table]. destruct Lk as (A & B & _). rewrite (role_native l A B). constructor.
  - exists out. split; [exact A|]. rewrite G. cbn. apply app_nil_r.
Qed.
Lemma one_line_at rt m l ws : named_symbols (m_syms m) -> no_nl l -> line_at (mk_parser rt m l) l ws ->
  exists out, assemble rt m l = Ok out /\ get_bytes out = ws.
Proof.
  intros Sy N Lk. assert (E : lines l = [l]).
  { apply lines_single; [exact N|]. intros ->. destruct Lk as (H & _). now apply H. }
  destruct (simple_program_at rt m l [ws] Sy) as (out & A & G).
  - rewrite E. constructor; [now apply sa_code|constructor].
  - unfold distinct_labels. rewrite E. cbn [label_table]. destruct Lk as (A & B & _). rewrite (role_native l A B). constructor.
  - exists out. split; [exact A|]. rewrite G. cbn. apply app_nil_r.
Qed.
Lemma one_line_ok rt m l out : no_nl l -> role_of l = Instruction -> assemble rt m l = Ok out ->
  exists s w i i1 i', parse_inst (mk_parser rt m l) (bump init_state) (clean l) = (w, Ok i)
    /\ adjust_one (mk_parser rt m l) s 0 1 i = Ok (i1, []) /\ p_labels s = []
    /\ @assemble_inst perror (rt_oc rt) i1 = Ok i' /\ out = [i'].
Proof.
  intros N R A. assert (E : lines l = [l]).
  { apply lines_single; [exact N|]. intros ->. discriminate R. }
  apply assemble_ok in A as (s & is1 & As).
  destruct (assembled_labels _ _ s is1 out (nl_of_lines l) As) as (Lb & _).
  destruct (assembled_at _ _ s is1 out [] l [] (nl_of_lines l) As E) as (s1 & S1 & _ & _ & _ & _ & X).
  rewrite R in X. destruct X as (w & i & i1 & i' & o1 & o2 & P & _ & Ad & Ai & -> & L1 & L2).
  destruct o1, o2; try discriminate. injection S1 as <-. exists (final (mk_parser rt m l) s), w, i, i1, i'.
  repeat split; auto. rewrite Lb, E. cbn [label_table]. now rewrite R.
Qed.
