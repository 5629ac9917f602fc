(** * PropsLink: separate assembly with a link table (C75).

    Statements, concrete instances and [Print Assumptions]; parts and link tables are defined in
    [SpecLink]. *)

From Coq Require Import Lia.
From Verif Require Import Lib SpecIsa StrLemmas NumLemmas OperandProofs NativeProofs LineProofs TextProofs ScanProofs ProgProofs AsmProofs LabelProofs BranchProofs
  PropsPseudo PropsLabels RefProofs AcceptProofs AcceptLines PropsImm PropsAccept CauseProofs PropsRun SpecErrors SpecText SpecProgram SpecLabels SpecScopes SpecLines SpecImm SpecAccept SpecModules
  ModuleProofs PropsModules SpecLink LinkProofs.

(** ** C75 *)

(** Each text assembled by itself, with its own symbols, at the address where the one before it
    ends. *)
Inductive assembled_with (rt : runtime) : mipsasm -> list str -> list (list (Z * str)) -> list (list inst) -> Prop :=
| with_end m : assembled_with rt m [] [] []
| with_more m a rest given tables oa os : assemble rt (set_symbols given m) a = Ok oa ->
    assembled_with rt (set_base (m_base m + 4 * Z.of_nat (instruction_count (lines a))) m) rest tables os -> assembled_with rt m (a :: rest) (given :: tables) (oa :: os).

Lemma given_named syms base all given : named_symbols syms -> identifier_labels all -> link_table syms base all given -> named_symbols given.
Proof.
  intros Sy Ids Lt a n I. destruct (proj2 Lt _ I) as [Is|Il]; [exact (Sy a n Is)|]. apply label_address in Il as (k & Ik & _).
  destruct (Ids n k Ik) as [H _]. destruct n; [exact Logic.I|exact H].
Qed.

Theorem C75_linking : forall rt m input texts tables wss, orders rt -> named_symbols (m_syms m) -> distinct_labels (lines input) -> identifier_labels (lines input) ->
  (forall n k a, In (n, k) (label_table 0 (lines input)) -> ~ In (a, n) (m_syms m)) ->
  0 <= m_base m -> m_base m + 4 * Z.of_nat (instruction_count (lines input)) < 2 ^ 32 ->
  lines input = List.concat (map lines texts) -> linked (m_syms m) (m_base m) (lines input) (m_base m) (map lines texts) tables wss ->
  exists out outs, assemble rt m input = Ok out /\ assembled_with rt m texts tables outs
    /\ words_of out = List.concat (map words_of outs) /\ get_bytes out = List.concat (map get_bytes outs).
Proof.
  intros rt m input texts tables wss Or Sy D Ids Ap Rb Ov E P.
  assert (X : exists out, assemble rt m input = Ok out /\ words_of out = code_words (lines input) (List.concat wss) /\ get_bytes out = List.concat (List.concat wss)).
  { apply program_accepted; auto. rewrite E at 2. apply (linked_joined (m_syms m) (m_base m) (lines input) (map lines texts) (m_base m) [] tables wss); auto.
    - cbn. lia.
    - apply nl_of_lines. }
  destruct X as (out & A & Wo & Go).
  assert (Y : exists outs, assembled_with rt m texts tables outs /\ List.concat (map words_of outs) = code_words (List.concat (map lines texts)) (List.concat wss)
              /\ List.concat (map get_bytes outs) = List.concat (List.concat wss)).
  { rewrite E in D, Ov. clear A Wo Go. remember (m_base m) as base0 eqn:Eb in P at 1. clear Eb. revert m tables wss Sy D Ap Rb Ov P. clear E.
    induction texts as [|t texts IH]; intros m tables wss Sy D Ap Rb Ov P; inversion P as [|base ls given ws rest tables' more Hd Bl Lt Nh Pr Ps]; subst.
    - exists []. repeat split; constructor.
    - cbn [map List.concat] in *. assert (Ov' := Ov). rewrite instruction_count_app in Ov'.
      destruct (program_accepted rt (set_symbols given m) t ws) as (oa & Aa & Wa & Ga); cbn [m_base m_syms set_symbols]; auto;
        [exact (given_named _ _ _ _ Sy Ids Lt)|intros _; lia|now apply distinct_left in D|].
      destruct (IH (set_base (m_base m + 4 * Z.of_nat (instruction_count (lines t))) m) tables' more) as (os & Ao & Wo & Go); cbn [set_base m_base m_syms]; auto; [now apply distinct_right in D|lia|lia|].
      exists (oa :: os). split; [now constructor|]. cbn [map List.concat]. split.
      + rewrite code_words_app by (eapply program_length; exact Pr). now rewrite Wa, Wo.
      + rewrite concat_app. now rewrite Ga, Go. }
  destruct Y as (outs & Ao & W1 & G1). exists out, outs. split; [exact A|]. split; [exact Ao|]. rewrite E in Wo. split; congruence.
Qed.

(** Two parts with one table: the symbols and all labels of the program. *)
Theorem C75_two : forall rt m input a b wss, orders rt -> named_symbols (m_syms m) -> distinct_labels (lines input) -> identifier_labels (lines input) ->
  (forall n k x, In (n, k) (label_table 0 (lines input)) -> ~ In (x, n) (m_syms m)) ->
  0 <= m_base m -> m_base m + 4 * Z.of_nat (instruction_count (lines input)) < 2 ^ 32 ->
  lines input = lines a ++ lines b ->
  let table := m_syms m ++ label_addresses (m_base m) (lines input) in
  linked (m_syms m) (m_base m) (lines input) (m_base m) [lines a; lines b] [table; table] wss ->
  exists out oa ob, assemble rt m input = Ok out /\ assemble rt (set_symbols table m) a = Ok oa
    /\ assemble rt (set_symbols table (set_base (m_base m + 4 * Z.of_nat (instruction_count (lines a))) m)) b = Ok ob /\ get_bytes out = get_bytes oa ++ get_bytes ob.
Proof.
  intros rt m input a b wss Or Sy D Ids Ap Rb Ov E table P.
  destruct (C75_linking rt m input [a; b] [table; table] wss Or Sy D Ids Ap Rb Ov) as (out & outs & A & Aw & _ & G); [cbn [map List.concat]; now rewrite app_nil_r|exact P|].
  inversion Aw as [|m1 a' r g1 t1 oa os Aa Ar]; subst. inversion Ar as [|m2 b' r' g2 t2 ob os' Ab Ar']; subst. inversion Ar'; subst.
  exists out, oa, ob. repeat split; auto. rewrite G. cbn [map List.concat]. now rewrite app_nil_r.
Qed.

(** A table of the symbols and all labels is a link table. *)
Lemma whole_table syms base all : link_table syms base all (syms ++ label_addresses base all).
Proof. split; intros x I; [apply in_or_app; now left|]. now apply in_app_or in I. Qed.

(** ** A case *)

(** A line without [%] asks for no halves. *)
Lemma half_sign n l : asks_half n l -> In "%"%char l.
Proof.
  intros (f & os & t & (ks & k & ts & _ & _ & _ & L) & Ht).
  assert (It : In "%"%char t) by (destruct Ht as [->|[->|(b & w & r & r' & _ & _ & _ & ->)]]; now left).
  destruct L as (a & st & gap & e & _ & St & _ & _ & _ & ->). apply in_or_app. right. apply in_or_app. left.
  inversion St as [m _ Em|m t0 ts0 x xs _ F Et]; [destruct ts; discriminate|].
  assert (Ip : In t (ts ++ [t])) by (apply in_or_app; right; now left). rewrite <- Et in Ip.
  apply in_or_app. right. apply in_or_app. right. clear - F Ip It. remember (t0 :: ts0) as us. remember (x :: xs) as ys. clear - F Ip It.
  induction F as [|u y us ys (a & b & _ & _ & ->) F IH]; [destruct Ip|]. destruct Ip as [->|Ip].
  - destruct ys as [|y ys]; cbn [join]; [|apply in_or_app; left]; apply in_or_app; right; apply in_or_app; now left.
  - specialize (IH Ip). destruct ys as [|y ys]; [destruct IH|]. cbn [join]. apply in_or_app. right. apply in_or_app. now right.
Qed.
Lemma no_halves all ls : forallb (fun l => negb (existsb (Ascii.eqb "%") l)) ls = true -> forall n k l, In (n, k) (label_table 0 all) -> In l ls -> ~ asks_half n l.
Proof.
  intros H n k l _ I Ha. apply half_sign in Ha. apply (proj1 (forallb_forall _ _) H) in I. apply Bool.negb_true_iff in I.
  assert (T : existsb (Ascii.eqb "%") l = true) by (apply existsb_exists; exists "%"%char; split; [exact Ha|reflexivity]). congruence.
Qed.

(** Two functions that jump to each other; the second one also jumps to a symbol. *)
Definition caller : list str := [ #"main:"; #"jal helper"; #"nop"; #"j main"; #"nop" ].
Definition helper : list str := [ #"helper:"; #"jal print"; #"nop"; #"j main"; #"nop"; #"end:" ].
Definition link_words : list (list (list Z)) :=
  [ [ []; [0x0c000004]; [0]; [0x08000000]; [0] ]; [ []; [0x0c000100]; [0]; [0x08000000]; [0]; [] ] ].
Definition with_print : mipsasm := mk_mipsasm 0x80000000 [(0x80000400, #"print")] false.
Definition link_map : list (Z * str) := [(0x80000400, #"print"); (0x80000000, #"main"); (0x80000010, #"helper"); (0x80000020, #"end")].

Ltac unique_symbol := intros ? I; repeat destruct I as [I|I]; try (injection I as <-; reflexivity); try discriminate I; destruct I.
Ltac address_step nm t a := eapply step_line; [apply (pl_jump_address _ _ _ _ nm t a);
  [split; [cbn [In]; tauto|apply (plain_statement nm t [])]|split; [discriminate|reflexivity]|apply na_symbol; [unfold link_map; cbn [In]; tauto|unfold link_map; unique_symbol]|lia]|vm_compute; reflexivity|].

Lemma linked_case : linked [(0x80000400, #"print")] 0x80000000 (caller ++ helper) 0x80000000 [caller; helper] [link_map; link_map] link_words.
Proof.
  assert (T : link_table [(0x80000400, #"print")] 0x80000000 (caller ++ helper) link_map).
  { change link_map with ([(0x80000400, #"print")] ++ label_addresses 0x80000000 (caller ++ helper)). apply whole_table. }
  unfold link_words. apply linked_more; [exists #"main:"; eexists; split; reflexivity|apply numbered_ok; vm_compute; reflexivity|exact T|apply no_halves; vm_compute; reflexivity| |
    apply linked_more; [exists #"helper:"; eexists; split; reflexivity|apply numbered_ok; vm_compute; reflexivity|exact T|apply no_halves; vm_compute; reflexivity| |constructor]].
  - unfold caller at 2. label_step #"main". address_step #"jal" #"helper" 0x80000010. nop_step. address_step #"j" #"main" 0x80000000. nop_step. constructor.
  - unfold helper at 2. label_step #"helper". address_step #"jal" #"print" 0x80000400. nop_step. address_step #"j" #"main" 0x80000000. nop_step. label_step #"end". constructor.
Qed.
Example C75_case : forall rt, orders rt -> exists out oa ob, assemble rt with_print (join [nl] (caller ++ helper)) = Ok out
  /\ assemble rt (mk_mipsasm 0x80000000 link_map false) (join [nl] caller) = Ok oa
  /\ assemble rt (mk_mipsasm 0x80000010 link_map false) (join [nl] helper) = Ok ob
  /\ get_bytes out = get_bytes oa ++ get_bytes ob.
Proof.
  intros rt Or. destruct (C75_two rt with_print (join [nl] (caller ++ helper)) (join [nl] caller) (join [nl] helper) link_words Or) as (out & oa & ob & A & Aa & Ab & G).
  - intros a n [E|[]]. injection E as <- <-. reflexivity.
  - unfold distinct_labels. vm_compute. repeat constructor; intros I; cbn in I; intuition discriminate.
  - intros n k I. change (lines (join [nl] (caller ++ helper))) with (caller ++ helper) in I. vm_compute in I. repeat (destruct I as [I|I]; [injection I as <- <-; split; reflexivity|]). destruct I.
  - intros n k x I [E|[]]. change (lines (join [nl] (caller ++ helper))) with (caller ++ helper) in I. vm_compute in I. injection E as <- <-. repeat (destruct I as [I|I]; [discriminate I|]). destruct I.
  - vm_compute. discriminate.
  - vm_compute. reflexivity.
  - vm_compute. reflexivity.
  - exact linked_case.
  - exists out, oa, ob. auto.
Qed.

Print Assumptions C75_linking.
Print Assumptions C75_two.
