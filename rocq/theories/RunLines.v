(** * RunLines: each line runs as its meaning says, and so do programs (proofs for C71). *)

From Coq Require Import Lia.
From Verif Require Import Lib SpecIsa StrLemmas OperandProofs NativeProofs LineProofs TextProofs ScanProofs ProgProofs AsmProofs SpecMachine MachineProofs ExecProofs
  PseudoProofs CodingProofs CauseProofs SpecText SpecProgram SpecPseudo SpecAccept InsProofs PropsPseudo PropsLabels SpecRun RunProofs.

(** ** Lines with pseudo-instructions are accepted *)

Lemma named_row {A} (l : list (str * A)) name : mem_str name (map fst l) = true -> exists g, In (name, g) l.
Proof. intros H. apply mem_str_in in H. apply in_map_iff in H as ([n g] & <- & I). now exists g. Qed.

Lemma three_ok name td ts tt d s t l : mem_str name (map fst expansions3) = true -> gpr_text td d -> gpr_text ts s -> gpr_text tt t ->
  instruction_line name [td; ts; tt] l -> no_nl l -> exists ws, line_ok l ws.
Proof. intros H A B C L N. destruct (named_row _ _ H) as (g & I). exists (g d s t). apply expansion_ok; [|exact N]. eapply ex_three; eauto. Qed.
Lemma divide_ok name td ts tt d s t l : mem_str name (map fst division_expansions) = true -> gpr_text td d -> gpr_text ts s -> gpr_text tt t -> t <> 0 ->
  instruction_line name [td; ts; tt] l -> no_nl l -> exists ws, line_ok l ws.
Proof. intros H A B C Z L N. destruct (named_row _ _ H) as (g & I). exists (g d s t). apply expansion_ok; [|exact N]. eapply ex_divide; eauto. Qed.
Lemma two_ok name td ts d s l : mem_str name (map fst expansions2) = true -> gpr_text td d -> gpr_text ts s ->
  instruction_line name [td; ts] l -> no_nl l -> exists ws, line_ok l ws.
Proof. intros H A B L N. destruct (named_row _ _ H) as (g & I). exists (g d s). apply expansion_ok; [|exact N]. eapply ex_two; eauto. Qed.
Lemma immediate_ok name td ts tn d s n l : mem_str name (map fst immediate_expansions) = true -> gpr_text td d -> gpr_text ts s -> signed_numeral tn n ->
  -32768 <= n < 32768 -> instruction_line name [td; ts; tn] l -> no_nl l -> exists ws, line_ok l ws.
Proof. intros H A B C R L N. destruct (named_row _ _ H) as (g & I). exists (g d s n). apply expansion_ok; [|exact N]. eapply ex_immediate; eauto. Qed.
Lemma idiom_ok f os ts l : existsb (format_eqb f) (isa ++ idioms) = true -> mem_str (f_name f) [ #"andi"; #"ori"; #"xori" ] = false ->
  instruction_line (f_name f) ts l -> Forall2 (fun ko t => operand_spelling (fst ko) (snd ko) t) (combine (f_ops f) os) ts -> List.length os = List.length (f_ops f) ->
  Forall2 notation_fits (f_ops f) os -> no_nl l -> exists ws, line_ok l ws.
Proof.
  intros E M L F Le W N. exists [word f os]. apply native_line_ok; auto.
  - apply existsb_exists in E as (g & I & G). apply format_eqb_true in G. now subst.
  - exists ts. auto.
  - intros I. apply mem_str_in in I. congruence.
Qed.

Section Lines.
Variable odd : Z -> Z.
Hypothesis Od : forall z, 0 <= odd z < 2 ^ 64.

(** A line has words that run as the meaning says. *)
Definition runs_as (l : str) (M : meaning) : Prop :=
  exists ws, line_ok l ws /\ forall st, well st -> exists e, M st e /\ ends_with_run odd ws st e.

Definition rt0 : runtime := mk_runtime false (fun l => l).
Lemma by_stands l (P : list Z -> Prop) : no_nl l -> (exists ws, line_ok l ws) -> (exists ws, stands_for rt0 m_new l ws /\ P ws) -> exists ws, line_ok l ws /\ P ws.
Proof.
  intros N (ws & K) (ws' & S & H). exists ws. split; [exact K|].
  rewrite (stands_unique _ _ _ _ _ (stands rt0 m_new l ws named_new N K) S). exact H.
Qed.
Lemma by_computes l sc rd (f : state -> Z) : no_nl l -> (exists ws, line_ok l ws) -> computes rt0 m_new l sc rd always f -> runs_as l (sets sc rd f).
Proof.
  intros N K (ws & S & H). unfold runs_as. apply by_stands; [exact N|exact K|]. exists ws. split; [exact S|]. intros st W.
  destruct (H odd st W Logic.I) as (st' & A & B & C). exists (Goes st'). split; [exists st'; auto|exact A].
Qed.
Lemma by_computes_if l sc rd (c : state -> bool) (f : state -> Z) (cond : state -> Prop) : no_nl l -> (exists ws, line_ok l ws) -> (forall st, c st = true -> cond st) ->
  computes rt0 m_new l sc rd cond f -> runs_as l (provided c (sets sc rd f)).
Proof.
  intros N K Cd (ws & S & H). unfold runs_as. apply by_stands; [exact N|exact K|]. exists ws. split; [exact S|]. intros st W. unfold provided.
  destruct (c st) eqn:E; [|exists Unspecified; split; [reflexivity|exact Logic.I]].
  destruct (H odd st W (Cd st E)) as (st' & A & B & C). exists (Goes st'). split; [exists st'; auto|exact A].
Qed.

Lemma exec_ends w st e : performs odd w st e -> ends_with_run odd [w] st e.
Proof.
  destruct e as [st'|x|]; cbn [performs ends_with_run]; intros E; [| |exact Logic.I].
  - apply straight_finishes. cbn [straight]. now rewrite E.
  - exact (straight_raises odd [] w [] st st x eq_refl E).
Qed.

Lemma notation_all ks os : Forall2 notation_fits ks os -> Forall2 fits ks os.
Proof. induction 1 as [|k o ks os [H _] F IH]; constructor; auto. Qed.

Lemma native_runs f act os l : no_nl l -> In f (isa ++ idioms) -> In (f_name f, act) (computing odd) -> native_line f os l -> Forall2 notation_fits (f_ops f) os ->
  case_condition f os l -> runs_as l (fun st e => act os st = Some e).
Proof.
  intros N If I L F C. exists [word f os]. split; [now apply native_line_ok|]. intros st W.
  destruct (native_performs odd f act os st If I (notation_all _ _ F) W) as (e & A & B). exists e. split; [exact A|now apply exec_ends].
Qed.

Ltac gsp := repeat (apply Forall2_cons; [now constructor|]); constructor.
Ltac gft := repeat (apply Forall2_cons; [split; [cbn [fits Rd Rs Rt fst snd]; try assumption; try lia|exact Logic.I]|]); constructor.
Ltac idiom f os ts := apply (idiom_ok f os ts); [vm_compute; reflexivity|vm_compute; reflexivity|assumption|gsp|reflexivity|gft|assumption].
Ltac three G1 G2 G3 L N := refine (three_ok _ _ _ _ _ _ _ _ _ G1 G2 G3 L N); vm_compute; reflexivity.

Lemma compares_ok name f td ts tt d s t l : In (name, f) comparisons -> gpr_text td d -> gpr_text ts s -> gpr_text tt t -> instruction_line name [td; ts; tt] l -> no_nl l ->
  exists ws, line_ok l ws.
Proof.
  intros I G1 G2 G3 L N. assert (R1 := gpr_range _ _ G1). assert (R2 := gpr_range _ _ G2). assert (R3 := gpr_range _ _ G3). look I; try (three G1 G2 G3 L N).
  - idiom (mk_format #"sgt" [op6 0; funct6 42] [Rd; Rt; Rs]) [OReg d; OReg s; OReg t] [td; ts; tt].
  - idiom (mk_format #"sgtu" [op6 0; funct6 43] [Rd; Rt; Rs]) [OReg d; OReg s; OReg t] [td; ts; tt].
Qed.
Lemma unary_ok name td ts d s l : mem_str name [ #"dmove"; #"negu"; #"dnegu"; #"not"; #"neg"; #"dneg"; #"move" ] = true -> gpr_text td d -> gpr_text ts s ->
  instruction_line name [td; ts] l -> no_nl l -> exists ws, line_ok l ws.
Proof.
  intros I G1 G2 L N. assert (R1 := gpr_range _ _ G1). assert (R2 := gpr_range _ _ G2). apply mem_str_in in I. cbn [In] in I.
  repeat (lazymatch type of I with _ \/ _ => destruct I as [I|I] end); [subst name..|exfalso; exact I].
  - idiom (mk_format #"dmove" [op6 0; funct6 45] [Rd; Rs]) [OReg d; OReg s] [td; ts].
  - idiom (mk_format #"negu" [op6 0; funct6 35] [Rd; Rt]) [OReg d; OReg s] [td; ts].
  - idiom (mk_format #"dnegu" [op6 0; funct6 47] [Rd; Rt]) [OReg d; OReg s] [td; ts].
  - idiom (mk_format #"not" [op6 0; funct6 39] [Rd; Rs]) [OReg d; OReg s] [td; ts].
  - idiom (mk_format #"neg" [op6 0; funct6 34] [Rd; Rt]) [OReg d; OReg s] [td; ts].
  - idiom (mk_format #"dneg" [op6 0; funct6 46] [Rd; Rt]) [OReg d; OReg s] [td; ts].
  - idiom (mk_format #"move" [op6 0; funct6 33] [Rd; Rt]) [OReg d; OReg s] [td; ts].
Qed.
Lemma clear_ok td d l : gpr_text td d -> instruction_line #"clear" [td] l -> no_nl l -> exists ws, line_ok l ws.
Proof. intros G L N. assert (R := gpr_range _ _ G). idiom (mk_format #"clear" [op6 0; funct6 33] [Rd]) [OReg d] [td]. Qed.
Lemma lli_ok td tc d c l : gpr_text td d -> numeral tc c -> c < 2 ^ 16 -> instruction_line #"lli" [td; tc] l -> no_nl l -> exists ws, line_ok l ws.
Proof. intros G Nu V L N. assert (R := gpr_range _ _ G). assert (V0 := numeral_nonneg _ _ Nu). idiom (mk_format #"lli" [op6 13] [Rt; Uimm]) [OReg d; OInt c] [td; tc]. Qed.
Lemma nop_runs l : instruction_line #"nop" [] l -> no_nl l -> runs_as l (sets [] 0 (fun _ => 0)).
Proof.
  intros L N. exists [word (mk_format #"nop" [op6 0] []) []]. split.
  - apply native_line_ok; [|exists []; split; [exact L|split; [constructor|reflexivity]]|exact N|constructor|].
    + assert (E : existsb (format_eqb (mk_format #"nop" [op6 0] [])) (isa ++ idioms) = true) by (vm_compute; reflexivity).
      apply existsb_exists in E as (g & I & G). apply format_eqb_true in G. now subst.
    + intros I. apply mem_str_in in I. vm_compute in I. discriminate I.
  - intros st W. change (word (mk_format #"nop" [op6 0] []) []) with (rword 0 0 0 0 0).
    exists (Goes (write st 0 (word32 (value st 0 * 2 ^ 0)))). split.
    + eexists. split; [reflexivity|]. split; [split; [congruence|]|split; reflexivity]. intros x X _. rewrite value_write.
      destruct (x =? 0) eqn:E; [apply Z.eqb_eq in E; congruence|reflexivity].
    + cbn [ends_with_run]. apply straight_finishes. cbn [straight]. rewrite exec_rword by lia. reflexivity.
Qed.

Theorem computing_runs l M : computing_line odd l M -> no_nl l -> runs_as l M.
Proof.
  intros H N. destruct H as [f act os l If I L F C|l L|name f td ts tt d s t l I G1 G2 G3 L|name f td ts d s l I G1 G2 L|td d l G1 L|name f ov td ts d s l I G1 G2 L
    |td ts d s l G1 G2 L|td ts d s l G1 G2 Nd Ns L|td ts d s l G1 G2 Nd Ns L|td tc d c l G1 Nu V L|td tc d c l G1 Nu V L|td tc d c l G1 Nu V L|td tc d c l G1 Nu V L
    |name f td ts tt d s t l I G1 G2 G3 L|name f lo hi keep td ts tt d s t l I G1 G2 G3 N0 N1 L|name word f td ts tt d s t l I G1 G2 G3 N0 L
    |name f td ts tt d s t l I G1 G2 G3 Nd Ns Nt L|name f td ts tn d s n l I G1 G2 Nu V L].
  - eapply native_runs; eauto.
  - now apply nop_runs.
  - apply by_computes; [exact N|exact (compares_ok _ _ _ _ _ _ _ _ _ I G1 G2 G3 L N)|]. exact (C19_set_on_comparison rt0 m_new named_new _ _ _ _ _ _ _ _ _ I G1 G2 G3 L N).
  - apply by_computes; [exact N|refine (unary_ok _ _ _ _ _ _ _ G1 G2 L N); look I; reflexivity|exact (C17_unary rt0 m_new named_new _ _ _ _ _ _ _ I G1 G2 L N)].
  - apply by_computes; [exact N|exact (clear_ok _ _ _ G1 L N)|exact (C17_clear rt0 m_new named_new _ _ _ G1 L N)].
  - unfold runs_as. apply by_stands; [exact N|refine (unary_ok _ _ _ _ _ _ _ G1 G2 L N); look I; reflexivity|].
    destruct (C17_negations rt0 m_new named_new name f ov td ts d s l I G1 G2 L N) as (ws & S & H). exists ws. split; [exact S|]. intros st W. specialize (H odd st W).
    unfold if_then_else. destruct (ov (value st s)); [exists (Stops Overflow); split; [reflexivity|exact H]|].
    destruct H as (st' & A & B & C). exists (Goes st'). split; [exists st'; auto|exact A].
  - eapply by_computes_if; [exact N|exact (unary_ok #"move" _ _ _ _ _ eq_refl G1 G2 L N)|intros st E; apply Z.eqb_eq in E; exact E|]. exact (proj2 (C17_move_partial rt0 m_new named_new td ts d s l G1 G2 L N)).
  - apply by_computes; [exact N|exact (two_ok #"abs" _ _ _ _ _ eq_refl G1 G2 L N)|exact (C18_abs rt0 m_new named_new _ _ _ _ _ G1 G2 Ns Nd L N)].
  - eapply by_computes_if; [exact N|exact (two_ok #"dabs" _ _ _ _ _ eq_refl G1 G2 L N)|intros st E; apply andb_prop in E as [E1 E2]|exact (C18_dabs_partial rt0 m_new named_new _ _ _ _ _ G1 G2 Ns Nd L N)]. cbv beta. lia.
  - apply by_computes; [exact N| |exact (C15_li_loads_its_constant_partial rt0 m_new named_new _ _ _ _ _ G1 Nu V L N)]. eexists. apply expansion_ok; [eapply ex_li; eauto; lia|exact N].
  - apply by_computes; [exact N| |exact (C16_liu_loads_its_constant rt0 m_new named_new _ _ _ _ _ G1 Nu V L N)]. eexists. apply expansion_ok; [eapply ex_liu; eauto; lia|exact N].
  - apply by_computes; [exact N|exact (lli_ok _ _ _ _ _ G1 Nu V L N)|exact (C16_lli_loads_its_constant rt0 m_new named_new _ _ _ _ _ G1 Nu V L N)].
  - apply by_computes; [exact N| |exact (C16_dli_loads_its_constant rt0 m_new named_new _ _ _ _ _ G1 Nu V L N)]. eexists. apply expansion_ok; [eapply ex_dli; eauto; lia|exact N].
  - unfold runs_as. apply by_stands; [exact N|look I; three G1 G2 G3 L N|].
    destruct (C21_products rt0 m_new named_new name f td ts tt d s t l I G1 G2 G3 L N) as (ws & S & H). exists ws. split; [exact S|]. intros st W.
    destruct (H odd st W) as (st' & A & B). exists (Goes st'). split; [exists st'; auto|exact A].
  - unfold runs_as. apply by_stands; [exact N|look I; three G1 G2 G3 L N|].
    destruct (C22_checked_products rt0 m_new named_new name f lo hi keep td ts tt d s t l I G1 G2 G3 N0 N1 L N) as (ws & S & H). exists ws. split; [exact S|]. intros st W.
    destruct (H odd st W _ eq_refl) as [A B]. unfold if_then_else. destruct ((lo <=? f (value st s) (value st t)) && (f (value st s) (value st t) <? hi)) eqn:E.
    + apply andb_prop in E as [E1 E2]. destruct A as (st' & A & A'); [lia|]. exists (Goes st'). split; [exists st'; auto|exact A].
    + exists (Stops (TrapCode 6)). split; [reflexivity|]. apply B. intros [E1 E2]. apply andb_false_iff in E as [E|E]; lia.
  - unfold runs_as. apply by_stands; [exact N|look I; first [three G1 G2 G3 L N|refine (divide_ok _ _ _ _ _ _ _ _ _ G1 G2 G3 N0 L N); vm_compute; reflexivity]|].
    destruct (C23_unsigned_division rt0 m_new named_new name word f td ts tt d s t l I G1 G2 G3 N0 L N) as (ws & S & H). exists ws. split; [exact S|]. intros st W.
    specialize (H odd st W). unfold provided, if_then_else. destruct (negb word || holds_word (value st t)) eqn:E; [|exists Unspecified; split; [reflexivity|exact Logic.I]].
    assert (O : operand_width word (value st t)) by (destruct word; [apply Z.eqb_eq in E; exact E|exact Logic.I]). specialize (H O).
    destruct (value st t =? 0); [exists (Stops (TrapCode 7)); split; [reflexivity|exact H]|]. destruct H as (st' & A & B). exists (Goes st'). split; [exists st'; auto|exact A].
  - apply by_computes; [exact N|look I; three G1 G2 G3 L N|exact (C25_rotations rt0 m_new named_new _ _ _ _ _ _ _ _ _ I G1 G2 G3 Nd Ns Nt L N)].
  - unfold runs_as. apply by_stands; [exact N|refine (immediate_ok _ _ _ _ _ _ _ _ _ G1 G2 Nu _ L N); [|lia]; unfold differences in I; cbn [In] in I;
      repeat (lazymatch type of I with _ \/ _ => destruct I as [I|I] end); [apply pair_inv in I; destruct I as [<- _]; reflexivity..|exfalso; exact I]|].
    assert (R1 := gpr_range _ _ G1). assert (R2 := gpr_range _ _ G2). assert (Mr : 0 <= (- n) mod 65536 < 65536) by (apply Z.mod_pos_bound; lia).
    unfold differences in I. cbn [In] in I. repeat (lazymatch type of I with _ \/ _ => destruct I as [I|I] end); [..|exfalso; exact I]; apply pair_inv in I; destruct I as [<- <-].
    + exists [iword 8 s d ((- n) mod 65536)]. split; [eapply (sub_line rt0 m_new named_new #"subi" I_Subi 8); eauto; [cbn [In]; tauto|lia]|].
      intros st W. eexists. split; [reflexivity|]. apply exec_ends. eapply checked_word; [rewrite exec_iword by lia; cbv beta iota zeta delta [exec_normal]; rewrite signed16_back by lia; reflexivity|].
      exact (sum_word_i _ (- n)).
    + exists [iword 24 s d ((- n) mod 65536)]. split; [eapply (sub_line rt0 m_new named_new #"dsubi" I_Dsubi 24); eauto; [cbn [In]; tauto|lia]|].
      intros st W. eexists. split; [reflexivity|]. apply exec_ends. eapply checked_long; [rewrite exec_iword by lia; cbv beta iota zeta delta [exec_normal]; rewrite signed16_back by lia; reflexivity|].
      exact (sum_long_i _ (- n)).
    + exists [iword 9 s d ((- n) mod 65536)]. split; [eapply (sub_line rt0 m_new named_new #"subiu" I_Subiu 9); eauto; [cbn [In]; tauto|lia]|].
      intros st W. eexists. split; [reflexivity|]. apply exec_ends. cbn [performs]. rewrite exec_iword by lia. cbv beta iota zeta delta [exec_normal]. rewrite signed16_back by lia. reflexivity.
    + exists [iword 25 s d ((- n) mod 65536)]. split; [eapply (sub_line rt0 m_new named_new #"dsubiu" I_Dsubiu 25); eauto; [cbn [In]; tauto|lia]|].
      intros st W. eexists. split; [reflexivity|]. apply exec_ends. cbn [performs]. rewrite exec_iword by lia. cbv beta iota zeta delta [exec_normal]. rewrite signed16_back by lia. reflexivity.
Qed.

(** ** Programs *)

Lemma lines_run ls ms : straight_lines odd ls ms -> Forall no_nl ls -> exists wss, Forall2 simple_line ls wss
  /\ forall st, well st -> exists e, in_turn ms st e /\ ends_with_run odd (List.concat wss) st e.
Proof.
  induction 1 as [|l ls ms B _ IH|n l ls ms Id L _ IH|l M ls ms C _ IH]; intros N.
  - exists []. split; [constructor|]. intros st W. exists (Goes st). split; [reflexivity|]. exists O. reflexivity.
  - inversion N; subst. destruct IH as (wss & F & H'); [assumption|]. exists ([] :: wss). split; [constructor; [now apply si_blank|exact F]|exact H'].
  - inversion N; subst. destruct IH as (wss & F & H'); [assumption|]. exists ([] :: wss). split; [constructor; [now apply si_label with n|exact F]|exact H'].
  - inversion N as [|x y Nl Ns]; subst. destruct (IH Ns) as (wss & F & H'). destruct (computing_runs l M C Nl) as (ws & K & R). exists (ws :: wss).
    split; [constructor; [now apply si_code|exact F]|]. intros st W. destruct (R st W) as (e1 & A & B). cbn [List.concat].
    destruct e1 as [st1|x|].
    + destruct (H' st1 (finishes_well odd Od ws st st1 W B)) as (e & T & E). exists e. split; [exists (Goes st1); split; [exact A|exact T]|].
      destruct e as [st2|x|]; cbn [ends_with_run] in *; [eapply finishes_app; eauto|eapply raises_later; eauto|exact Logic.I].
    + exists (Stops x). split; [exists (Stops x); split; [exact A|reflexivity]|]. cbn [ends_with_run] in *. now apply raises_here.
    + exists Unspecified. split; [exists Unspecified; split; [exact A|reflexivity]|exact Logic.I].
Qed.
End Lines.
