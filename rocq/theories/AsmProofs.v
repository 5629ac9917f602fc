(** * AsmProofs: native instructions in the assembler (proofs only). *)

From Coq Require Import Lia.
From Verif Require Import PropsDisasm Lib SpecIsa SpecListing StrLemmas NumLemmas DecodeProofs DisasmProofs DisasmMore
  TextProofs OperandProofs NativeProofs LineProofs ScanProofs ProgProofs RoundProofs FieldProofs SpecText SpecProgram.

(** ** C01 *)

Lemma named_new : named_symbols (m_syms m_new).
Proof. intros a n []. Qed.

Lemma C01_line rt m f os l : named_symbols (m_syms m) -> In f (isa ++ idioms) -> native_line f os l -> no_nl l ->
  Forall2 notation_fits (f_ops f) os -> case_condition f os l ->
  exists out, assemble rt m l = Ok out /\ get_bytes out = [word f os].
Proof. intros. apply one_line; auto. now apply native_line_ok. Qed.

Definition the_format (name : str) (n : nat) : option format :=
  find (fun f => str_eqb (f_name f) name && Nat.eqb (List.length (f_ops f)) n) (isa ++ idioms).
Lemma the_format_in name n f : the_format name n = Some f -> In f (isa ++ idioms).
Proof. intros H. now apply find_some in H. Qed.

Lemma plain_statement name t ts : instruction_line name (t :: ts) (name ++ #" " ++ join #"," (t :: ts)).
Proof.
  exists [], (name ++ #" " ++ join #"," (t :: ts)), [], []. repeat split; auto; try (now constructor).
  - constructor; [reflexivity|]. clear. generalize (t :: ts). intros l. induction l; constructor; auto.
    exists [], []. repeat split. now rewrite app_nil_r.
  - now rewrite !app_nil_r.
Qed.

Lemma hex_text v s : s = #"0x" ++ hex v -> 0 <= v < 2 ^ 64 -> numeral s v.
Proof. intros -> H. now apply num_hex, hex_numeral. Qed.
Lemma C01_refuted_proof_j rt : exists f os l out, In f (isa ++ idioms) /\ native_line f os l /\ ~ In nl l
  /\ Forall2 fits (f_ops f) os /\ assemble rt m_new l = Ok out /\ get_bytes out <> [word f os].
Proof.
  exists (mk_format #"j" [op6 2] [Target26]), [OInt 0x4000000], #"j 0x4000000". eexists.
  split; [apply (the_format_in #"j" 1); vm_compute; reflexivity|].
  split; [|split; [vm_compute; intuition discriminate|split; [repeat constructor; cbn; lia|split]]].
  - exists [#"0x4000000"]. split; [exact (plain_statement #"j" #"0x4000000" [])|]. split; [|reflexivity].
    constructor; [|constructor]. constructor. apply hex_text; [vm_compute; reflexivity|lia].
  - destruct rt as [oc ord]. vm_compute. reflexivity.
  - vm_compute. discriminate.
Qed.
Lemma C01_refuted_proof_break rt : exists f os l es, In f (isa ++ idioms) /\ native_line f os l /\ ~ In nl l
  /\ Forall2 fits (f_ops f) os /\ assemble rt m_new l = Err es.
Proof.
  exists (mk_format #"break" [op6 0; funct6 13] [Code20]), [OInt 0x10000], #"break 0x10000". eexists.
  split; [apply (the_format_in #"break" 1); vm_compute; reflexivity|].
  split; [|split; [vm_compute; intuition discriminate|split; [repeat constructor; cbn; lia|]]].
  - exists [#"0x10000"]. split; [exact (plain_statement #"break" #"0x10000" [])|]. split; [|reflexivity].
    constructor; [|constructor]. constructor. apply hex_text; [vm_compute; reflexivity|lia].
  - destruct rt as [oc ord]. vm_compute. reflexivity.
Qed.

(** ** C47 *)

Definition m_all {A} (P : A -> Prop) (x : M A) : Prop := match snd x with Ok a => P a | _ => True end.
Lemma m_all_bind {A B} (P : B -> Prop) (x : M A) f : (forall a, m_all P (f a)) -> m_all P (mbind x f).
Proof.
  intros H. destruct x as [w [a|p|p]]; cbn [mbind]; try exact I. specialize (H a). unfold m_all in *.
  destruct (f a) as [w' r]. exact H.
Qed.
(** A parsed instruction has no words yet. *)
Definition fresh (i : inst) : Prop := match i with IBytes _ => True | _ => inst_bytes i = [] end.
Lemma fail_all {A} (P : A -> Prop) e n k : m_all P (lift (fail_at e n k)).
Proof. unfold fail_at, m_all, lift. cbn. destruct (get_line e n); exact I. Qed.
Ltac fresh_tac := repeat first
  [ apply m_all_bind; intros ? | apply fail_all | exact I | reflexivity
  | match goal with |- m_all _ (match ?x with _ => _ end) => destruct x end
  | match goal with |- m_all _ (if ?x then _ else _) => destruct x end ].
Lemma parse_inst_fresh e s l w i : parse_inst e s l = (w, Ok i) -> fresh i.
Proof.
  intros H. assert (G : m_all fresh (parse_inst e s l)).
  { unfold parse_inst. destruct (match split_once " " l with Some oa => oa | None => (l, []) end) as [op arg].
    destruct l; [apply fail_all|]. generalize (split_char "," arg) as args. intros args.
    unfold parse_op. destruct (classify (trim (to_lower op))) as [[]|];
    unfold parse_mem, parse_imm3, parse_imm2, parse_trap_imm, parse_branch1, parse_branch2, parse_jump, parse_plain, parse_reg3,
      parse_shift, parse_shiftv, parse_code, parse_reg2, parse_jalr, parse_move, parse_b, parse_li, parse_div, parse_rs, parse_rd,
      parse_dli, parse_cop0, parse_cop1, parse_fmem, parse_word, parse_float, bad_count; cbv zeta; fresh_tac. }
  rewrite H in G. exact G.
Qed.
Lemma adjust_fresh e s i n x y er : fresh x -> adjust_one e s i n x = Ok (y, er) -> fresh y.
Proof.
  intros F H. destruct x as [op rs rt im b|op t b|op rs rt rd sa b|w]; cbn [adjust_one] in H.
  - destruct im as [v|v|v|l|l].
    + injection H as <- _. exact F.
    + destruct (negb (is_b_op op)); [injection H as <- _; exact F|]. apply obind_ok in H as (bad & _ & H).
      apply obind_ok in H as (er' & _ & H). injection H as <- _. reflexivity.
    + injection H as <- _. exact F.
    + destruct (assoc l (p_dropped s)).
      * apply obind_ok in H as (p & _ & H). destruct p; [injection H as <- _; reflexivity|].
        apply obind_ok in H as (p & _ & H). injection H as <- _. exact F.
      * apply obind_ok in H as (p & _ & H). injection H as <- _. exact F.
    + destruct (assoc l (p_labels s)); [injection H as <- _; reflexivity|discriminate].
  - destruct t as [l|a]; [|injection H as <- _; exact F].
    destruct (assoc l (p_labels s)).
    + apply obind_ok in H as (p & _ & H). apply obind_ok in H as (p' & _ & H). injection H as <- _. reflexivity.
    + apply obind_ok in H as (p & _ & H). injection H as <- _. exact F.
  - injection H as <- _. exact F.
  - injection H as <- _. exact F.
Qed.
Lemma enc_r_length op rs rt rd sa : (1 <= List.length (enc_r op rs rt rd sa) <= 8)%nat.
Proof. destruct op; cbn [enc_r]; try destruct (reg_num rt =? 0); cbn [List.length]; lia. Qed.
Definition ok_all {E A} (P : A -> Prop) (o : outcome E A) : Prop := match o with Ok a => P a | _ => True end.
Lemma ok_all_bind {E A B} (P : B -> Prop) (o : outcome E A) (f : A -> outcome E B) : (forall a, ok_all P (f a)) -> ok_all P (obind o f).
Proof. intros H. destruct o; cbn; auto. Qed.
Lemma enc_i_length_all E oc op rs rt im : ok_all (fun ws => 1 <= List.length ws <= 8)%nat (@enc_i E oc op rs rt im).
Proof.
  destruct op; cbn [enc_i];
  repeat lazymatch goal with
  | |- ok_all _ (obind _ _) => apply ok_all_bind; intros ?
  | |- ok_all _ (if ?b then _ else _) => destruct b
  end; unfold ok_all, enc_li, enc_liu;
  repeat lazymatch goal with |- context[if ?b then _ else _] => destruct b end; cbn [List.length]; lia.
Qed.
Lemma enc_i_length oc op rs rt im ws : @enc_i perror oc op rs rt im = Ok ws -> (1 <= List.length ws <= 8)%nat.
Proof. intros H. assert (K := enc_i_length_all perror oc op rs rt im). rewrite H in K. exact K. Qed.
Lemma enc_j_length_all E op t : ok_all (fun ws => 1 <= List.length ws <= 8)%nat (@enc_j E op t).
Proof.
  destruct op; cbn [enc_j]; apply ok_all_bind; intros ?; cbn [ok_all List.length]; lia.
Qed.
Lemma assemble_inst_length oc i i' : fresh i -> @assemble_inst perror oc i = Ok i' -> (1 <= List.length (inst_bytes i') <= 8)%nat.
Proof.
  intros F H. destruct i as [op rs rt im b|op t b|op rs rt rd sa b|w]; cbn [assemble_inst] in H; cbn [fresh inst_bytes] in F; subst; try discriminate.
  - apply obind_ok in H as (ws & E & H). injection H as <-. exact (enc_i_length _ _ _ _ _ _ E).
  - apply obind_ok in H as (ws & E & H). injection H as <-. cbn [inst_bytes app].
    assert (K := enc_j_length_all perror op t). rewrite E in K. exact K.
  - injection H as <-. apply enc_r_length.
Qed.

(** Every instruction of a successful assembly comes from an instruction line. *)
Lemma nth_instruction ls k : (k < instruction_count ls)%nat -> exists l1 raw l2, ls = l1 ++ raw :: l2 /\ role_of raw = Instruction /\ instruction_count l1 = k.
Proof.
  revert k. induction ls as [|l ls IH]; intros k H; [cbn in H; lia|].
  unfold instruction_count in H. cbn [filter] in H. destruct (is_instruction l) eqn:E.
  - destruct k as [|k].
    + exists [], l, ls. split; [reflexivity|]. split; [|reflexivity]. unfold is_instruction in E. destruct (role_of l); try discriminate. reflexivity.
    + cbn [List.length] in H. destruct (IH k) as (l1 & raw & l2 & -> & R & C); [unfold instruction_count; lia|].
      exists (l :: l1), raw, l2. split; [reflexivity|]. split; [exact R|]. unfold instruction_count in *. cbn [filter]. rewrite E. cbn. lia.
  - destruct (IH k) as (l1 & raw & l2 & -> & R & C); [exact H|]. exists (l :: l1), raw, l2. split; [reflexivity|]. split; [exact R|].
    unfold instruction_count in *. cbn [filter]. now rewrite E.
Qed.
Theorem C47_proof rt m input out : assemble rt m input = Ok out ->
  List.length out = instruction_count (lines input) /\ Forall (fun i => 1 <= List.length (inst_bytes i) <= 8)%nat out.
Proof.
  intros A. apply assemble_ok in A as (s & is1 & As). set (e := mk_parser rt m input) in *.
  assert (N := nl_of_lines input).
  destruct (assembled_labels e _ s is1 out N As) as (_ & _ & _ & _ & _ & Ln).
  split; [exact Ln|]. apply Forall_forall. intros i I. apply In_nth_error in I as [k I].
  assert (K : (k < List.length out)%nat) by (apply nth_error_Some; congruence). rewrite Ln in K.
  destruct (nth_instruction _ _ K) as (l1 & raw & l2 & E & R & C).
  destruct (assembled_at e _ s is1 out l1 raw l2 N As E) as (s1 & S1 & E1 & L1 & P1 & T1 & X).
  rewrite R in X. destruct X as (w & i0 & i1 & i' & o1 & o2 & P' & _ & Ad & Ai & -> & Lo & _).
  rewrite nth_error_app2 in I by lia. rewrite Lo, C, Nat.sub_diag in I. injection I as <-.
  apply (assemble_inst_length (e_oc e) i1); [|exact Ai]. eapply adjust_fresh; [|exact Ad]. eapply parse_inst_fresh. exact P'.
Qed.

(** ** C55 *)

Lemma notation_is_fits ks os : Forall2 notation_fits ks os -> Forall2 fits ks os.
Proof. induction 1 as [|k o ks os [H _] _ IH]; constructor; auto. Qed.
Lemma change_fields f ks1 k ks2 os1 o o' os2 p n n' : In f (isa ++ idioms) -> f_ops f = ks1 ++ k :: ks2 ->
  List.length ks1 = List.length os1 -> register_change k o o' p n n' ->
  Forall2 fits (f_ops f) (os1 ++ o :: os2) -> Forall2 fits (f_ops f) (os1 ++ o' :: os2) ->
  field (word f (os1 ++ o :: os2)) p 5 = n /\ field (word f (os1 ++ o' :: os2)) p 5 = n'
  /\ forall i, 0 <= i -> ~ (p <= i < p + 5) ->
     Z.testbit (word f (os1 ++ o :: os2)) i = Z.testbit (word f (os1 ++ o' :: os2)) i.
Proof.
  intros I E L R F F'. assert (K := format_is_ok f I).
  destruct (word_is_pieces f _ K F) as (O & A & <-). destruct (word_is_pieces f _ K F') as (O' & A' & <-).
  assert (X : exists a b, word_pieces f (os1 ++ o :: os2) = a ++ (p, 5, n) :: b /\ word_pieces f (os1 ++ o' :: os2) = a ++ (p, 5, n') :: b).
  { unfold word_pieces. rewrite E, !flat_combine_app by exact L.
    destruct R; cbn [pieces app fst snd]; exists (f_key f ++ flat_map (fun ko => pieces (fst ko) (snd ko)) (combine ks1 os1)); eexists;
      rewrite <- !app_assoc; split; reflexivity. }
  destruct X as (a & b & X & X'). unfold piece in *. rewrite X in *. rewrite X' in *.
  split; [now apply sum_field|]. split; [now apply sum_field|]. intros i Hi Ho. now apply sum_other.
Qed.

(** ** C43 *)

Lemma digit_back c d : to_digit 10 c = Some d -> digit 10 c d.
Proof.
  destruct c as [[] [] [] [] [] [] [] []]; intros H; vm_compute in H; try discriminate H; injection H as <-;
    (split; [lia|left; reflexivity]).
Qed.
Lemma digits_back s : forall pre v0 v, digits 10 pre v0 -> digits_val 10 v0 s = Some v -> digits 10 (pre ++ s) v.
Proof.
  induction s as [|c s IH]; intros pre v0 v D H; cbn [digits_val] in H; [injection H as <-; now rewrite app_nil_r|].
  destruct (to_digit 10 c) as [d|] eqn:T; [|discriminate]. apply digit_back in T.
  change (pre ++ c :: s) with (pre ++ [c] ++ s). rewrite app_assoc. apply (IH _ (v0 * 10 + d)); [now constructor|exact H].
Qed.
Lemma digits_val_back s v : s <> [] -> digits_val 10 0 s = Some v -> digits 10 s v.
Proof.
  intros N H. destruct s as [|c s]; [congruence|]. cbn [digits_val] in H. destruct (to_digit 10 c) as [d|] eqn:T; [|discriminate].
  apply digit_back in T. change (c :: s) with ([c] ++ s). replace (0 * 10 + d) with d in H by lia. apply (digits_back s [c] d); [now constructor|exact H].
Qed.
Lemma in_range_val t v v' : in_range t v = Some v' -> v' = v.
Proof. unfold in_range. destruct (_ && _); [|discriminate]. congruence. Qed.
Lemma parse_u32_back s v : parse_int u32 10 s = Some v -> exists plus ds, s = plus ++ ds /\ (plus = [] \/ plus = #"+") /\ digits 10 ds v.
Proof.
  unfold parse_int. destruct s as [|c r]; [discriminate|].
  destruct (Ascii.eqb_spec c "+") as [->|N]; cbn [orb].
  - destruct r as [|d r]; [discriminate|]. destruct (digits_val 10 0 (d :: r)) as [u|] eqn:D; [|discriminate].
    intros H. apply in_range_val in H. subst. exists #"+", (d :: r). split; [reflexivity|]. split; [now right|]. apply digits_val_back; [discriminate|exact D].
  - destruct (Ascii.eqb c "-"); [destruct r; discriminate|]. destruct (digits_val 10 0 (c :: r)) as [u|] eqn:D; [|discriminate].
    intros H. apply in_range_val in H. subst. exists [], (c :: r). split; [reflexivity|]. split; [now left|]. apply digits_val_back; [discriminate|exact D].
Qed.
Lemma reg_try_range n r : reg_try_from n = Ok r -> 0 <= n < 32 /\ reg_num r = n.
Proof.
  intros H. assert (K : 0 <= n < 32).
  { unfold reg_try_from in H. destruct n as [|q|q]; try discriminate; [lia|].
    repeat (let q' := fresh "q" in destruct q as [q'|q'|]; [rename q' into q|rename q' into q|]; try discriminate; try lia). }
  split; [exact K|]. assert (E : reg_of_num n = r) by (unfold reg_of_num; now rewrite H). subst r. now apply reg_of_num_num.
Qed.

Lemma accepted_dollars d s n : forallb (cls "$") d = true -> accepted_gpr s n -> accepted_gpr (d ++ s) n.
Proof.
  induction d as [|c d IH]; intros F A; [exact A|]. cbn in F. apply andb_true_iff in F as [F1 F2].
  unfold cls in F1. apply Ascii.eqb_eq in F1. subst c. exact (ag_dollar _ _ (IH F2 A)).
Qed.
Lemma assoc_reg_back r x : assoc (to_lower r) reg_table = Some x -> r = #"r0" \/ (r = #"R0" /\ reg_num x = 0) \/ same_letters r (nth_name gpr_names (reg_num x)).
Proof.
  intros H. apply assoc_in in H.
  assert (T : forallb (fun kv => str_eqb (fst kv) #"r0" && (reg_num (snd kv) =? 0) || str_eqb (fst kv) (to_lower (nth_name gpr_names (reg_num (snd kv))))) reg_table = true) by (vm_compute; reflexivity).
  rewrite forallb_forall in T. specialize (T _ H). cbn [fst snd] in T. apply orb_true_iff in T as [T|T].
  - apply andb_true_iff in T as [T T0]. apply Z.eqb_eq in T0. apply str_eqb_spec in T. destruct r as [|a [|b [|c r]]]; try discriminate.
    change ([lower_char a; lower_char b] = ["r"; "0"]%char) in T.
    assert (Hb : lower_char b = "0"%char) by congruence. assert (Ha : lower_char a = "r"%char) by congruence.
    assert (b = "0"%char) as ->.
    { revert Hb. clear. destruct b as [[] [] [] [] [] [] [] []]; intros H; vm_compute in H; first [discriminate H|reflexivity]. }
    assert (a = "r"%char \/ a = "R"%char) as [-> | ->]; auto.
    { revert Ha. clear. destruct a as [[] [] [] [] [] [] [] []]; intros H; vm_compute in H; first [discriminate H|now left|now right]. }
  - apply str_eqb_spec in T. right. right. exact T.
Qed.
Lemma reg_core_back x r v : reg_core x r = Ok v -> accepted_gpr r (reg_num v).
Proof.
  unfold reg_core. intros H. destruct (re_find REG_RE r) as [p|] eqn:E.
  - destruct (parse_int u32 10 (drop_while (cls "r") r)) as [n|] eqn:P; [|discriminate].
    apply reg_try_range in H as [R <-]. apply parse_u32_back in P as (plus & ds & P & Pl & D).
    destruct (drop_while_decomp (cls "r") r) as (rs & -> & F). rewrite P. apply ag_number; auto.
  - destruct (parse_int u32 10 r) as [n|] eqn:P.
    + apply reg_try_range in H as [R <-]. apply parse_u32_back in P as (plus & ds & P & Pl & D). subst r.
      apply (ag_number [] plus ds); auto.
    + destruct (assoc (to_lower r) reg_table) as [y|] eqn:A; [|discriminate]. injection H as <-.
      apply assoc_reg_back in A as [A|[[A A0]|A]].
      * subst r. discriminate E.
      * subst r. rewrite A0. apply ag_upper.
      * apply ag_named; [apply reg_num_range|exact A].
Qed.
Lemma token_operand x : token x -> operand_ok x /\ no_ws x.
Proof.
  intros [N F]. rewrite forallb_forall in F. assert (W : no_ws x).
  { unfold no_ws. apply forallb_forall. intros c I. specialize (F c I). now apply andb_true_iff in F as [F _]. }
  split; [|exact W]. apply operand_ok_no_ws; auto. apply forallb_forall. intros c I. specialize (F c I).
  apply andb_true_iff in F as [_ F]. revert F. clear. destruct c as [[] [] [] [] [] [] [] []]; vm_compute; auto.
Qed.
Lemma no_ws_no_nl x : no_ws x -> no_nl x.
Proof. unfold no_ws. rewrite forallb_forall. intros H I. specialize (H _ I). discriminate. Qed.
Lemma plain_no_nl name x : no_ws name -> no_ws x -> no_nl (name ++ #" " ++ x).
Proof.
  intros A B I. apply in_app_or in I as [I|[I|I]]; [exact (no_ws_no_nl _ A I)|discriminate I|exact (no_ws_no_nl _ B I)].
Qed.
Lemma padded_trim_token t x : padded t x -> no_ws t -> trim x = t.
Proof. intros P W. rewrite (padded_trim _ _ P); auto using no_ws_tight_start, no_ws_tight_end. Qed.
Lemma reg_from_back x r : reg_from_str x = Ok r -> accepted_gpr (trim x) (reg_num r).
Proof.
  rewrite reg_from_core. intros H. apply reg_core_back in H. unfold after_dollar in H.
  destruct (drop_while_decomp (cls "$") (trim x)) as (d & E & F). rewrite E. now apply accepted_dollars.
Qed.
Theorem C43_sound_proof rt m x out : token x -> assemble rt m (#"jr " ++ x) = Ok out ->
  exists n, accepted_gpr x n /\ 0 <= n < 32 /\ get_bytes out = [word (special 8 "jr" [Rs]) [OReg n]].
Proof.
  intros T A. destruct (token_operand x T) as [O W].
  assert (L : instruction_line #"jr" [x] (#"jr " ++ x)) by exact (plain_statement #"jr" x []).
  assert (Nl : no_nl (#"jr " ++ x)) by exact (plain_no_nl #"jr" x eq_refl W).
  assert (Nm : name_ok #"jr") by (apply name_okb_ok; reflexivity).
  destruct (line_parse (mk_parser rt m (#"jr " ++ x)) (bump init_state) #"jr" [x] _ Nm (Forall_cons _ O (Forall_nil _)) Nl L)
    as (op & arg & xs & SL & V & Ne & Ec & P & _).
  destruct V as [[V _]|[_ V]]; [discriminate V|]. inversion V as [|? y ? ? [Py _] V']; subst. inversion V'; subst.
  apply one_line_ok in A as (s & w & i & i1 & i' & Pi & Ad & _ & Ai & ->); [|exact Nl|now apply role_native].
  rewrite P in Pi. unfold parse_op in Pi. unfold same_letters in SL. rewrite SL in Pi.
  change (classify (trim (to_lower #"jr"))) with (Some GRs) in Pi. cbv iota in Pi. unfold parse_rs in Pi. rewrite SL in Pi.
  change (str_eqb (trim (to_lower #"jr")) #"jr") with true in Pi. cbv iota in Pi.
  change (check_delay (mk_parser rt m (#"jr " ++ x)) (bump init_state)) with (lift (A := unit) (Ok tt)) in Pi. rewrite mbind_ok in Pi.
  unfold areg, arg_reg in Pi. destruct (reg_from_str y) as [r|er|p] eqn:R; cbn [lift mbind] in Pi.
  - assert (Rj : rop_of op = Ok R_Jr) by (rewrite (rop_of_letters _ #"jr" SL); reflexivity). rewrite Rj in Pi. cbn in Pi.
    injection Pi as <- <-. cbn in Ad. injection Ad as <-. cbn in Ai. injection Ai as <-.
    exists (reg_num r). apply reg_from_back in R. rewrite (padded_trim_token _ _ Py W) in R. split; [exact R|].
    assert (Z := reg_num_range r). split; [exact Z|]. cbn [get_bytes flat_map inst_bytes app].
    clear. destruct r; vm_compute; reflexivity.
  - unfold fail_at in Pi. destruct (get_line _ _); cbn in Pi; discriminate Pi.
  - discriminate Pi.
Qed.

Lemma plain_native f os t ts : List.length os = List.length (f_ops f) ->
  Forall2 (fun ko t => operand_spelling (fst ko) (snd ko) t) (combine (f_ops f) os) (t :: ts) ->
  native_line f os (f_name f ++ #" " ++ join #"," (t :: ts)).
Proof. intros L F. exists (t :: ts). split; [apply plain_statement|]. split; [exact F|now symmetry]. Qed.

Lemma spelling_no_ws k o t : operand_spelling k o t -> k <> Mem -> no_ws t.
Proof.
  intros H. destruct H as [p n s G|p n s G|p n s G|v s N|v s N|v s N|v s N|v s N|v s N|]; intros K;
    try (apply numeral_shape in N as (radix & ds & S & _); now apply (number_no_ws _ _ _ _ S)).
  - now destruct (dollar_ok _ _ _ gpr_token_ok G) as (t' & _ & _ & ? & ? & _).
  - now destruct (dollar_ok _ _ _ fpr_token_ok G) as (t' & _ & _ & ? & ? & _).
  - now destruct (dollar_ok _ _ _ cop0_token_ok G) as (t' & _ & _ & ? & ? & _).
  - apply signed_numeral_shape in N as (neg & radix & ds & S & _). now apply (number_no_ws _ _ _ _ S).
  - congruence.
Qed.

(** A one-line program [name t1,t2,...] without memory operands. *)
Lemma direct rt m f os t ts : named_symbols (m_syms m) -> In f (isa ++ idioms) -> no_ws (f_name f) ->
  List.length os = List.length (f_ops f) ->
  Forall2 (fun ko t => operand_spelling (fst ko) (snd ko) t /\ fst ko <> Mem) (combine (f_ops f) os) (t :: ts) ->
  Forall2 notation_fits (f_ops f) os ->
  exists out, assemble rt m (f_name f ++ #" " ++ join #"," (t :: ts)) = Ok out /\ get_bytes out = [word f os].
Proof.
  intros Sy I N L F W.
  assert (F' : Forall2 (fun ko t => operand_spelling (fst ko) (snd ko) t) (combine (f_ops f) os) (t :: ts)).
  { revert F. generalize (combine (f_ops f) os), (t :: ts). intros a b F. induction F as [|x y a b [H _] _ IH]; constructor; auto. }
  assert (K : no_ws (join #"," (t :: ts)) /\ join #"," (t :: ts) <> []).
  { assert (K : Forall (fun t => no_ws t /\ t <> []) (t :: ts)).
    { revert F. generalize (combine (f_ops f) os), (t :: ts). intros a b F. induction F as [|x y a b [H K] _ IH]; constructor; auto.
      split; [eapply spelling_no_ws; eauto|]. apply spelling_ok in H. apply H. }
    inversion K as [|? ? [K1 K2] K3]; subst. split.
    - revert K. generalize (t :: ts). intros l K. induction K as [|x l' [H _] K' IH]; [reflexivity|]. cbn [join].
      destruct l'; [exact H|]. apply no_ws_app. split; [exact H|]. apply no_ws_app. split; [reflexivity|exact IH].
    - cbn [join]. destruct ts; [exact K2|]. destruct t; [congruence|discriminate]. }
  destruct K as [K1 K2].
  apply C01_line; auto.
  - now apply plain_native.
  - now apply plain_no_nl.
  - intros Nm. left. rewrite trim_tight.
    + clear. induction (f_name f) as [|c n IH]; [reflexivity|]. cbn [app starts_with]. now rewrite Ascii.eqb_refl, IH.
    + assert (In (f_name f) [ #"andi"; #"ori"; #"xori" ]) as [<-|[<-|[<-|[]]]] by exact Nm; reflexivity.
    + apply tight_end_app; [discriminate|]. apply tight_end_app; [exact K2|]. now apply no_ws_tight_end.
Qed.
Lemma gpr_range x n : gpr_text x n -> 0 <= n < 32.
Proof. intros [H|(? & _ & H)]; destruct H; auto. Qed.
Lemma fpr_range x n : fpr_text x n -> 0 <= n < 32.
Proof. intros [H|(? & _ & H)]; destruct H; auto. Qed.
Lemma cop0_text_range x n : cop0_text x n -> 0 <= n < 32.
Proof. intros [H|(? & _ & H)]; destruct H as [? ? ? H|? ? H]; now apply cop0_range in H. Qed.

Ltac in_isa n k := apply (the_format_in n k); vm_compute; reflexivity.
Ltac spell := cbn [combine special normal cop f_ops]; unfold Rs, Rt, Rd, Fs, Ft, Fd;
  repeat (constructor; [cbn [fst snd]; split; [constructor; eauto|let Q := fresh in intros Q; cbv in Q; discriminate Q]|]); constructor.
Ltac fit := cbn [special normal cop f_ops]; unfold Rs, Rt, Rd, Fs, Ft, Fd; repeat (constructor; [split; [cbn; lia|try exact I; cbn; try lia; auto]|]); constructor.
Theorem C43_gpr_proof rt m x n : named_symbols (m_syms m) -> gpr_text x n ->
  exists out, assemble rt m (#"jr " ++ x) = Ok out /\ get_bytes out = [n * 2 ^ 21 + 8].
Proof.
  intros Sy G. assert (R := gpr_range _ _ G).
  destruct (direct rt m (special 8 "jr" [Rs]) [OReg n] x []) as (out & A & B); auto; lazymatch goal with |- no_ws _ => try reflexivity | _ => idtac end.
  - in_isa #"jr" 1%nat.
  - spell.
  - fit.
  - exists out. split; [exact A|]. rewrite B. unfold word. cbn [special f_key f_ops key_word ops_word combine map sumZ fold_right place op6 funct6 Rs fst snd]. f_equal. lia.
Qed.
Lemma zero_text : gpr_text #"$zero" 0.
Proof. right. exists #"zero". split; [reflexivity|]. apply gpr_named; [lia|reflexivity]. Qed.
Theorem C43_fpr_proof rt m x n : named_symbols (m_syms m) -> fpr_text x n ->
  exists out, assemble rt m (#"mfc1 $zero," ++ x) = Ok out /\ get_bytes out = [17 * 2 ^ 26 + n * 2 ^ 11].
Proof.
  intros Sy G. assert (R := fpr_range _ _ G).
  destruct (direct rt m (cop 1 0 "mfc1" [Rt; Fs]) [OReg 0; OReg n] #"$zero" [x]) as (out & A & B); auto; lazymatch goal with |- no_ws _ => try reflexivity | _ => idtac end.
  - in_isa #"mfc1" 2%nat.
  - assert (Z := zero_text). spell.
  - fit.
  - exists out. split; [exact A|]. rewrite B. unfold word. cbn [cop f_key f_ops key_word ops_word combine map sumZ fold_right place op6 rs5 Rt Fs fst snd]. f_equal. lia.
Qed.
Theorem C43_cop0_proof rt m x n : named_symbols (m_syms m) -> cop0_text x n ->
  exists out, assemble rt m (#"mfc0 $zero," ++ x) = Ok out /\ get_bytes out = [16 * 2 ^ 26 + n * 2 ^ 11].
Proof.
  intros Sy G. assert (R := cop0_text_range _ _ G).
  destruct (direct rt m (cop 0 0 "mfc0" [Rt; Cop0 11]) [OReg 0; OReg n] #"$zero" [x]) as (out & A & B); auto; lazymatch goal with |- no_ws _ => try reflexivity | _ => idtac end.
  - in_isa #"mfc0" 2%nat.
  - assert (Z := zero_text). spell.
  - fit.
  - exists out. split; [exact A|]. rewrite B. unfold word. cbn [cop f_key f_ops key_word ops_word combine map sumZ fold_right place op6 rs5 Rt fst snd]. f_equal. lia.
Qed.

(** ** C55 *)

Theorem C55_proof rt m f ks1 k ks2 os1 o o' os2 p n n' l l' : named_symbols (m_syms m) -> In f (isa ++ idioms) ->
  f_ops f = ks1 ++ k :: ks2 -> List.length ks1 = List.length os1 -> register_change k o o' p n n' ->
  native_line f (os1 ++ o :: os2) l -> no_nl l -> case_condition f (os1 ++ o :: os2) l ->
  native_line f (os1 ++ o' :: os2) l' -> no_nl l' -> case_condition f (os1 ++ o' :: os2) l' ->
  Forall2 notation_fits (f_ops f) (os1 ++ o :: os2) -> Forall2 notation_fits (f_ops f) (os1 ++ o' :: os2) ->
  exists out out' w w', assemble rt m l = Ok out /\ get_bytes out = [w] /\ assemble rt m l' = Ok out' /\ get_bytes out' = [w']
    /\ field w p 5 = n /\ field w' p 5 = n'
    /\ forall i, 0 <= i -> ~ (p <= i < p + 5) -> Z.testbit w i = Z.testbit w' i.
Proof.
  intros Sy I E L R N Nl C N' Nl' C' F F'.
  destruct (C01_line rt m f _ l Sy I N Nl F C) as (out & A & B). destruct (C01_line rt m f _ l' Sy I N' Nl' F' C') as (out' & A' & B').
  exists out, out'. do 2 eexists. repeat (split; [eassumption|]).
  exact (change_fields f ks1 k ks2 os1 o o' os2 p n n' I E L R (notation_is_fits _ _ F) (notation_is_fits _ _ F')).
Qed.

(** ** C53 *)

Theorem C53_signed_proof rt m x v : named_symbols (m_syms m) -> signed_numeral x v -> -32768 <= v < 32768 ->
  exists out, assemble rt m (#"addiu $zero,$zero," ++ x) = Ok out /\ get_bytes out = [9 * 2 ^ 26 + v mod 2 ^ 16].
Proof.
  intros Sy N R. assert (Z := zero_text).
  destruct (direct rt m (normal 9 "addiu" [Rt; Rs; Simm]) [OReg 0; OReg 0; OInt v] #"$zero" [ #"$zero"; x ]) as (out & A & B); auto; lazymatch goal with |- no_ws _ => try reflexivity | _ => idtac end.
  - in_isa #"addiu" 3%nat.
  - spell.
  - fit.
  - exists out. split; [exact A|]. rewrite B. unfold word. cbn [normal f_key f_ops key_word ops_word combine map sumZ fold_right place op6 Rt Rs fst snd]. f_equal.
    change (2 ^ 16) with 65536. lia.
Qed.
Theorem C53_unsigned_proof rt m x v : named_symbols (m_syms m) -> numeral x v -> 0 <= v < 65536 ->
  exists out, assemble rt m (#"ori $zero,$zero," ++ x) = Ok out /\ get_bytes out = [13 * 2 ^ 26 + v].
Proof.
  intros Sy N R. assert (Z := zero_text).
  destruct (direct rt m (normal 13 "ori" [Rt; Rs; Uimm]) [OReg 0; OReg 0; OInt v] #"$zero" [ #"$zero"; x ]) as (out & A & B); auto; lazymatch goal with |- no_ws _ => try reflexivity | _ => idtac end.
  - in_isa #"ori" 3%nat.
  - spell.
  - fit.
  - exists out. split; [exact A|]. rewrite B. unfold word. cbn [normal f_key f_ops key_word ops_word combine map sumZ fold_right place op6 Rt Rs fst snd]. f_equal. lia.
Qed.
Theorem C53_shift_proof rt m x v : named_symbols (m_syms m) -> numeral x v -> 0 <= v < 32 ->
  exists out, assemble rt m (#"sll $zero,$zero," ++ x) = Ok out /\ get_bytes out = [v * 2 ^ 6].
Proof.
  intros Sy N R. assert (Z := zero_text).
  destruct (direct rt m (special 0 "sll" [Rd; Rt; Shamt]) [OReg 0; OReg 0; OInt v] #"$zero" [ #"$zero"; x ]) as (out & A & B); auto; lazymatch goal with |- no_ws _ => try reflexivity | _ => idtac end.
  - in_isa #"sll" 3%nat.
  - spell.
  - fit.
  - exists out. split; [exact A|]. rewrite B. unfold word. cbn [special f_key f_ops key_word ops_word combine map sumZ fold_right place op6 funct6 Rt Rd fst snd]. f_equal. lia.
Qed.
Theorem C53_code_proof rt m x v : named_symbols (m_syms m) -> numeral x v -> 0 <= v < 65536 ->
  exists out, assemble rt m (#"break " ++ x) = Ok out /\ get_bytes out = [v * 2 ^ 6 + 13].
Proof.
  intros Sy N R.
  destruct (direct rt m (special 13 "break" [Code20]) [OInt v] x []) as (out & A & B); auto; lazymatch goal with |- no_ws _ => try reflexivity | _ => idtac end.
  - in_isa #"break" 1%nat.
  - spell.
  - fit.
  - exists out. split; [exact A|]. rewrite B. unfold word. cbn [special f_key f_ops key_word ops_word combine map sumZ fold_right place op6 funct6 fst snd]. f_equal. lia.
Qed.
Theorem C53_target_proof rt m x v : named_symbols (m_syms m) -> numeral x v -> 0 <= v < 2 ^ 32 -> v mod 4 = 0 -> v mod 2 ^ 28 < 2 ^ 26 ->
  exists out, assemble rt m (#"j " ++ x) = Ok out /\ get_bytes out = [2 * 2 ^ 26 + v mod 2 ^ 28 / 4].
Proof.
  intros Sy N R M S.
  destruct (direct rt m (normal 2 "j" [Target26]) [OInt v] x []) as (out & A & B); auto; lazymatch goal with |- no_ws _ => try reflexivity | _ => idtac end.
  - in_isa #"j" 1%nat.
  - spell.
  - constructor; [|constructor]. split; [split; [exact R|exact M]|exact S].
  - exists out. split; [exact A|]. rewrite B. unfold word. cbn [normal f_key f_ops key_word ops_word combine map sumZ fold_right place op6 fst snd]. f_equal.
    change (2 ^ 28) with (4 * 2 ^ 26). rewrite Z.rem_mul_r by lia. rewrite M. rewrite Z.add_0_l. rewrite (Z.mul_comm 4). rewrite Z.div_mul by lia. lia.
Qed.

(** ** C28 *)

Theorem C28_partial_proof rt m name o d t x rd r v : named_symbols (m_syms m) ->
  In (name, o) [("sll", 0); ("srl", 2); ("sra", 3); ("dsll", 56); ("dsrl", 58); ("dsra", 59); ("dsll32", 60); ("dsrl32", 62); ("dsra32", 63)]%string ->
  gpr_text d rd -> gpr_text t r -> numeral x v -> 0 <= v < 32 ->
  exists out, assemble rt m (lit name ++ #" " ++ d ++ #"," ++ t ++ #"," ++ x) = Ok out
    /\ get_bytes out = [r * 2 ^ 16 + rd * 2 ^ 11 + v * 2 ^ 6 + o].
Proof.
  intros Sy I D T N R. assert (Rd' := gpr_range _ _ D). assert (Rt' := gpr_range _ _ T).
  destruct (direct rt m (special o name [Rd; Rt; Shamt]) [OReg rd; OReg r; OInt v] d [t; x]) as (out & A & B); auto; lazymatch goal with |- no_ws _ => try reflexivity | _ => idtac end.
  - cbn [In] in I. decompose [or] I; try contradiction;
    match goal with H : (_, _) = _ |- _ => injection H as <- <- end; [in_isa #"sll" 3%nat|in_isa #"srl" 3%nat|in_isa #"sra" 3%nat
      |in_isa #"dsll" 3%nat|in_isa #"dsrl" 3%nat|in_isa #"dsra" 3%nat|in_isa #"dsll32" 3%nat|in_isa #"dsrl32" 3%nat|in_isa #"dsra32" 3%nat].
  - cbn [In] in I. decompose [or] I; try contradiction;
    match goal with H : (_, _) = _ |- _ => injection H as <- <- end; reflexivity.
  - spell.
  - fit.
  - exists out. split; [exact A|]. rewrite B. unfold word. cbn [special f_key f_ops key_word ops_word combine map sumZ fold_right place op6 funct6 Rt Rd fst snd]. f_equal. lia.
Qed.
