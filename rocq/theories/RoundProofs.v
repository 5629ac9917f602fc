(** * RoundProofs: reassembling a disassembly (proofs only). *)

From Coq Require Import Lia.
From Verif Require Import PropsDisasm Lib SpecIsa SpecListing StrLemmas NumLemmas DecodeProofs DisasmProofs ListingProofs InjProofs DisasmMore
  TextProofs OperandProofs NativeProofs LineProofs ScanProofs ProgProofs SpecText SpecProgram.

(** ** Printed numbers are numerals *)

Lemma digit_char_digit u r d : 0 <= d < r -> r <= 16 -> digit r (digit_char u d) d.
Proof.
  intros D R. split; [exact D|].
  assert (I : In d (map Z.of_nat (seq 0 16))) by (apply range_in'; lia). clear D.
  cbn in I. repeat destruct I as [<-|I]; try (destruct u; [right; reflexivity|left; reflexivity]). destruct I.
Qed.
Lemma digits_go_digits f u r n acc : 2 <= r <= 16 -> 0 <= n < r ^ Z.of_nat (S f) ->
  exists s, digits_go (S f) u r n acc = s ++ acc /\ digits r s n.
Proof.
  intros R. revert n acc. induction f as [|f IH]; intros n acc H.
  - change (r ^ Z.of_nat 1) with (r ^ 1) in H. rewrite Z.pow_1_r in H. exists [digit_char u n]. cbn [digits_go].
    rewrite Z.div_small, Z.mod_small by lia. split; [reflexivity|]. constructor. apply digit_char_digit; lia.
  - remember (S f) as g. cbn [digits_go]. assert (D := Z.mod_pos_bound n r ltac:(lia)). assert (E := Z.div_mod n r ltac:(lia)).
    destruct (Z.eqb_spec (n / r) 0) as [Z0|NZ].
    + exists [digit_char u (n mod r)]. split; [reflexivity|]. replace n with (n mod r) at 2 by lia. constructor. apply digit_char_digit; lia.
    + destruct (IH (n / r) (digit_char u (n mod r) :: acc)) as (s & -> & S').
      { split; [apply Z.div_pos; lia|]. apply Z.div_lt_upper_bound; [lia|].
        rewrite <- Z.pow_succ_r, <- Nat2Z.inj_succ by lia. apply H. }
      exists (s ++ [digit_char u (n mod r)]). rewrite <- app_assoc. split; [reflexivity|].
      rewrite E at 2. rewrite (Z.mul_comm r). constructor; [exact S'|]. apply digit_char_digit; lia.
Qed.
Lemma hex_numeral v : 0 <= v < 2 ^ 64 -> digits 16 (hex v) v.
Proof.
  intros H. unfold hex. destruct (digits_go_digits 15 false 16 v [] ltac:(lia)) as (s & -> & D); [exact H|]. now rewrite app_nil_r.
Qed.
Lemma hexU_numeral v : 0 <= v < 2 ^ 64 -> digits 16 (hexU v) v.
Proof.
  intros H. unfold hexU. destruct (digits_go_digits 15 true 16 v [] ltac:(lia)) as (s & -> & D); [exact H|]. now rewrite app_nil_r.
Qed.
Lemma signed_text_numeral v : -32768 <= v < 32768 -> signed_numeral (signed_text v) v.
Proof.
  intros R. unfold signed_text. destruct (Z.ltb_spec v 0) as [N|N].
  - replace v with (- - v) at 2 by lia. change (#"-0x" ++ hex (- v)) with (#"-" ++ (#"0x" ++ hex (- v))).
    apply num_neg. apply num_hex. apply hex_numeral. lia.
  - apply num_pos, num_hex. apply hex_numeral. lia.
Qed.

Lemma blank_nil : blank [].
Proof. reflexivity. Qed.
Lemma padded_self t : padded t t.
Proof. exists [], []. repeat split. now rewrite app_nil_r. Qed.

Lemma operand_text_spelling k o t : notation_fits k o -> operand_text k o = Some t -> operand_spelling k o t.
Proof.
  intros [F X] E. destruct k; destruct o as [n|v|off b]; cbn [fits] in F; try (now destruct F);
    cbn [operand_text] in E; try (apply some_inj2 in E; subst t).
  - constructor. right. eexists. split; [reflexivity|]. constructor; [exact F|reflexivity].
  - constructor. right. eexists. split; [reflexivity|]. constructor; [exact F|reflexivity].
  - constructor. left. apply cop0_named with (t := t); [exact E|reflexivity].
  - constructor. apply num_hex, hex_numeral. lia.
  - constructor. now apply signed_text_numeral.
  - constructor. apply num_hex, hex_numeral. lia.
  - constructor. apply num_hex, hex_numeral. lia.
  - constructor. apply num_hex, hex_numeral. lia.
  - destruct F as [F B]. eapply sp_mem with (o := signed_text off) (r := #"$" ++ nth_name gpr_names b); [now apply signed_text_numeral| |apply padded_self|].
    + right. eexists. split; [reflexivity|]. constructor; [exact B|reflexivity].
    + exists []. split; [reflexivity|]. reflexivity.
  - constructor. apply num_hex, hexU_numeral. lia.
Qed.
Lemma operands_text_spelling ks os ts : Forall2 notation_fits ks os -> operands_text ks os = Some ts ->
  Forall2 (fun ko t => operand_spelling (fst ko) (snd ko) t) (combine ks os) ts.
Proof.
  intros F. revert ts. induction F as [|k o ks os H _ IH]; intros ts; cbn [operands_text combine]; [injection 1 as <-; constructor|].
  destruct (operand_text k o) eqn:E; [|discriminate]. destruct (operands_text ks os); [|discriminate].
  intros X. apply some_inj2 in X. subst ts. constructor; [now apply operand_text_spelling|]. now apply IH.
Qed.

(** ** Lines *)

Lemma join_comma_space t ts : join #", " (t :: ts) = join #"," (t :: map (fun u => " "%char :: u) ts).
Proof.
  revert t. induction ts as [|u ts IH]; intros t; [reflexivity|].
  change (join #", " (t :: u :: ts)) with (t ++ #", " ++ join #", " (u :: ts)). rewrite IH. cbn [map].
  destruct ts; reflexivity.
Qed.
Lemma padded_spaces ts : Forall2 padded ts (map (fun u => " "%char :: u) ts).
Proof.
  induction ts as [|t ts IH]; constructor; [|exact IH]. exists #" ", []. repeat split. cbn. now rewrite app_nil_r.
Qed.
Lemma text_line f os t : Forall2 notation_fits (f_ops f) os -> text f os = Some t -> native_line f os t.
Proof.
  intros F T. apply text_cases in T as [(E & -> & ->)|(ts & E & Ne & ->)].
  - exists []. split; [|rewrite E; split; [constructor|reflexivity]].
    exists [], (f_name f), [], []. repeat split; auto; try constructor; try reflexivity. now rewrite !app_nil_r.
  - exists ts. split; [|split; [now apply operands_text_spelling|]].
    + destruct ts as [|u ts]; [congruence|]. exists [], (f_name f ++ #" " ++ join #"," (u :: map (fun u => " "%char :: u) ts)), [], [].
      repeat split; auto; try constructor; try reflexivity.
      * constructor; [apply padded_self|apply padded_spaces].
      * rewrite join_comma_space. now rewrite !app_nil_r.
    + apply operands_text_spec in E. lia.
Qed.

(** Printed lines contain no line breaks. *)
Definition clear (s : str) : Prop := free_of nl s /\ free_of cr s.
Lemma clear_app a b : clear (a ++ b) <-> clear a /\ clear b.
Proof. unfold clear. rewrite !free_of_app. tauto. Qed.
Lemma operand_clear k o t : ranged k o -> operand_text k o = Some t -> clear t.
Proof.
  intros R E.
  assert (K : forall c, In c [nl; cr] -> free_of c t).
  { intros c Ic.
    assert (Hc : ~ In c (lit "0123456789abcdefABCDEF") /\ ~ In c (lit "-0123456789abcdefABCDEFx") /\ free_of c #"$" /\ free_of c #"0x" /\ free_of c #"(" /\ free_of c #")"
      /\ forallb (fun s => forallb (fun x => negb (Ascii.eqb x c)) s) gpr_names = true
      /\ forallb (fun s => forallb (fun x => negb (Ascii.eqb x c)) s) fpr_names = true
      /\ forallb (fun p => forallb (fun x => negb (Ascii.eqb x c)) (snd p)) cop0_names = true).
    { destruct Ic as [<-|[<-|[]]]; (split; [cbn; intuition discriminate|]); (split; [cbn; intuition discriminate|]);
        repeat (split; [apply free_ofb; reflexivity|]); repeat split; vm_compute; reflexivity. }
    destruct Hc as (H1 & H2 & H3 & H4 & H5 & H6 & H7 & H8 & H9).
    destruct k; destruct o as [n|v|f b]; cbn [ranged fits] in R; try (now destruct R);
      cbn [operand_text] in E; try (apply some_inj2 in E; subst t).
    - apply prefix_free; [exact H3|now apply nth_free].
    - apply prefix_free; [exact H3|now apply nth_free].
    - eapply c0_free; [|exact E]. exact H9.
    - apply prefix_free; [exact H4|]. apply hex_free; [lia|exact H1].
    - apply signed_free; [lia|exact H2].
    - apply prefix_free; [exact H4|]. apply hex_free; [lia|exact H1].
    - apply prefix_free; [exact H4|]. apply hex_free; [lia|exact H1].
    - apply prefix_free; [exact H4|]. apply hex_free; [lia|exact H1].
    - destruct R as [R S]. apply prefix_free; [apply signed_free; [lia|exact H2]|].
      apply prefix_free; [exact H5|]. apply prefix_free; [exact H3|].
      apply prefix_free; [now apply nth_free|exact H6].
    - apply prefix_free; [exact H4|]. apply hexU_free; [lia|exact H1].
    - apply signed_free; [lia|exact H2]. }
  split; apply K; cbn; auto.
Qed.
Lemma join_clear sep ts : clear sep -> Forall clear ts -> clear (join sep ts).
Proof.
  intros S F. induction F as [|t ts H F IH]; [split; intros x []|].
  destruct ts as [|u ts]; [exact H|]. change (join sep (t :: u :: ts)) with (t ++ sep ++ join sep (u :: ts)).
  rewrite !clear_app. auto.
Qed.
Lemma operands_clear ks os ts : Forall2 ranged ks os -> operands_text ks os = Some ts -> Forall clear ts.
Proof.
  intros H. revert ts. induction H as [|k o ks os R _ IH]; intros ts; cbn; [injection 1 as <-; constructor|].
  destruct (operand_text k o) eqn:E; [|discriminate]. destruct (operands_text ks os); [|discriminate].
  injection 1 as <-. constructor; [eapply operand_clear; eassumption|]. now apply IH.
Qed.
Lemma name_clear f : In f isa -> clear (f_name f).
Proof.
  assert (H : forallb (fun f => forallb (fun c => negb (Ascii.eqb c nl)) (f_name f) && forallb (fun c => negb (Ascii.eqb c cr)) (f_name f)) isa = true)
    by (vm_compute; reflexivity).
  intros I. rewrite forallb_forall in H. specialize (H _ I). apply andb_true_iff in H as [A B]. split; now apply free_ofb.
Qed.
Lemma clear_lit s : forallb (fun c => negb (Ascii.eqb c nl)) s && forallb (fun c => negb (Ascii.eqb c cr)) s = true -> clear s.
Proof. intros H. apply andb_true_iff in H as [A B]. split; now apply free_ofb. Qed.
Lemma text_clear f os t : In f isa -> Forall2 ranged (f_ops f) os -> text f os = Some t -> clear t.
Proof.
  intros I R T. apply text_cases in T as [(_ & _ & ->)|(ts & E & _ & ->)]; [now apply name_clear|].
  change (f_name f ++ " "%char :: join #", " ts) with (f_name f ++ (#" " ++ join #", " ts)). rewrite !clear_app.
  split; [now apply name_clear|]. split; [apply clear_lit; reflexivity|]. apply join_clear; [apply clear_lit; reflexivity|].
  eapply operands_clear; eassumption.
Qed.
Lemma clear_proper t : clear t -> proper_line t.
Proof.
  intros [A B]. split; [intros I; now apply (A nl)|]. intros p ->. apply (B cr); [|reflexivity]. apply in_or_app. right. now left.
Qed.

(** ** Words that come back *)

Lemma text_starts f os t : text f os = Some t -> name_ok (f_name f) -> starts_with (f_name f) (trim t) = true.
Proof.
  intros T (N & P & W). 
  assert (X : exists r, t = f_name f ++ r).
  { apply text_cases in T as [(_ & _ & ->)|(ts & _ & _ & ->)]; [exists []; now rewrite app_nil_r|eauto]. }
  destruct X as [r ->]. destruct (f_name f) as [|c n] eqn:E; [congruence|]. rewrite <- E in *. clear T.
  destruct (trim_decomp (f_name f ++ r)) as (a & b & D & A & B).
  assert (a = []).
  { rewrite E in D. destruct a as [|x a]; [reflexivity|]. cbn in D. injection D as D _. subst x. cbn in A.
    apply andb_true_iff in A as [A _]. rewrite E in W. apply no_ws_cons in W as [W _]. congruence. }
  subst a. cbn [app] in D.
  (* trim keeps the name *)
  assert (Ln : (List.length (f_name f) <= List.length (trim (f_name f ++ r)))%nat).
  { destruct (Nat.le_gt_cases (List.length (f_name f)) (List.length (trim (f_name f ++ r)))) as [H|H]; [exact H|exfalso].
    assert (L : nth_error (f_name f ++ r) (List.length (f_name f) - 1) = nth_error (trim (f_name f ++ r) ++ b) (List.length (f_name f) - 1)) by congruence.
    rewrite nth_error_app1 in L by lia. rewrite nth_error_app2 in L by lia.
    destruct (nth_error (f_name f) (List.length (f_name f) - 1)) as [x|] eqn:Nx.
    - symmetry in L. apply nth_error_In in L. apply nth_error_In in Nx. rewrite forallb_forall in B. assert (Bx := B x L).
      unfold no_ws in W. rewrite forallb_forall in W. assert (Wx := W x Nx). now rewrite Bx in Wx.
    - apply nth_error_None in Nx. rewrite E in Nx. cbn in Nx. lia. }
  assert (F : firstn (List.length (f_name f)) (trim (f_name f ++ r)) = f_name f).
  { assert (F : firstn (List.length (f_name f)) (f_name f ++ r) = firstn (List.length (f_name f)) (trim (f_name f ++ r) ++ b)) by congruence.
    rewrite firstn_app, Nat.sub_diag, firstn_all in F. cbn [firstn] in F. rewrite app_nil_r in F.
    rewrite firstn_app in F. replace (_ - _)%nat with O in F by lia. cbn [firstn] in F. rewrite app_nil_r in F. congruence. }
  rewrite <- (firstn_skipn (List.length (f_name f)) (trim (f_name f ++ r))). rewrite F. clear.
  generalize (skipn (List.length (f_name f)) (trim (f_name f ++ r))). intros l. induction (f_name f) as [|c n IH]; [reflexivity|].
  cbn. now rewrite Ascii.eqb_refl.
Qed.

Lemma returns_line base w t : is_word base -> is_word w -> returns base w -> debug_inst (disasm_word base w) = Ok t ->
  source_line t [w] /\ proper_line t /\ t <> [].
Proof.
  intros B W (C & Nl & f & R & F & T) D.
  destruct (text f (map (extract base w) (f_ops f))) as [t'|] eqn:Tx; [|congruence]. clear T.
  assert (Rt : read_text base w = Some t') by (unfold read_text; rewrite R; exact Tx).
  assert (Nr : ~ reserved_tlb w) by (intros (X & _); congruence).
  rewrite (line_is_text base w t' W B Nr Nl Rt) in D. injection D as <-.
  assert (If := read_word_in _ _ R). assert (If' : In f (isa ++ idioms)) by (apply in_or_app; now left).
  assert (Cl : clear t') by (apply (text_clear f _ _ If (extract_ops_ranged base w _ B) Tx)).
  assert (St := text_starts f _ _ Tx (table_name f If')).
  split; [|split; [now apply clear_proper|]].
  - pose proof (C f R) as Cw. rewrite Cw at 1. apply sl_native; auto; [now apply text_line|]. intros _. now left.
  - intros ->. destruct (table_name f If') as (N & _). destruct (f_name f); [congruence|discriminate].
Qed.

Lemma lines_join_proper ls : Forall proper_line ls -> Forall (fun l => l <> []) ls -> lines (join [nl] ls) = ls.
Proof.
  intros P N. destruct (rev ls) as [|l r] eqn:E.
  - apply (f_equal (@rev str)) in E. rewrite rev_involutive in E. subst. reflexivity.
  - apply (f_equal (@rev str)) in E. rewrite rev_involutive in E. cbn [rev] in E. rewrite E in *.
    apply Forall_app in P as [P1 P2]. apply Forall_app in N as [N1 N2]. inversion P2; inversion N2; subst.
    apply lines_join; auto. apply H1.
Qed.

Lemma label_table_native k ls wss : Forall2 source_line ls wss -> Forall no_nl ls ->
  Forall (fun ws => ws <> []) wss -> label_table k ls = [].
Proof.
  intros F N. revert k N. induction F as [|l ws ls wss H _ IH]; intros k N Ne; [reflexivity|].
  inversion N; inversion Ne; subst. cbn [label_table]. destruct H as [l B|n l I L|f os l If L W C]; [congruence|congruence|].
  destruct (native_parse (mk_env [] 0 [] false (fun x => x)) init_state f os l (table_name f If) ltac:(assumption) L W) as (_ & _ & _ & _ & _ & A & B & _).
  rewrite (role_native l A B). now apply IH.
Qed.

Theorem C03_partial_proof : forall oc rt base ws ls, is_word base -> Forall is_word ws ->
  Forall (returns base) ws ->
  disassemble oc (debug_at base) ws = Ok ls ->
  exists out, assemble rt (set_base base m_new) (join [nl] ls) = Ok out /\ get_bytes out = ws.
Proof.
  intros oc rt base ws ls B W R D. rewrite disassemble_debug in D by reflexivity. apply map_outcome_forall2 in D.
  assert (K : Forall2 (fun w l => source_line l [w] /\ proper_line l /\ l <> []) ws ls).
  { revert W R. induction D as [|w l ws ls H _ IH]; intros W R; constructor; inversion W; inversion R; subst.
    - cbv beta in H. unfold debug_at in H. rewrite debug_line_plain in H. now apply (returns_line base w l).
    - now apply IH. }
  assert (P : Forall proper_line ls /\ Forall (fun l => l <> []) ls /\ Forall2 source_line ls (map (fun w => [w]) ws)).
  { clear D. induction K as [|w l ws ls (H1 & H2 & H3) _ IH]; [repeat constructor|].
    inversion W; inversion R; subst. destruct IH as (I1 & I2 & I3); auto. repeat split; constructor; auto. }
  destruct P as (P & N & F). assert (L := lines_join_proper ls P N).
  destruct (straight_line rt (set_base base m_new) (join [nl] ls) (map (fun w => [w]) ws)) as (out & A & G).
  - intros a n [].
  - now rewrite L.
  - unfold distinct_labels. rewrite L. rewrite (label_table_native 0 ls _ F).
    + constructor.
    + eapply Forall_impl; [|exact P]. intros a [H _]. exact H.
    + apply Forall_forall. intros x I. apply in_map_iff in I as (w & <- & _). discriminate.
  - exists out. split; [exact A|]. rewrite G. clear. induction ws as [|w ws IH]; cbn; congruence.
Qed.

Theorem C03_refuted_proof : forall oc rt, ~ (forall base ws, is_word base -> Forall is_word ws -> Forall (canonical base) ws ->
  exists ls out, disassemble oc (debug_at base) ws = Ok ls
    /\ assemble rt (set_base base m_new) (join [nl] ls) = Ok out /\ get_bytes out = ws).
Proof.
  intros oc rt H. destruct (H 0x80000000 [0x20007fff]) as (ls & out & D & A & B).
  - unfold is_word. lia.
  - constructor; [unfold is_word; lia|constructor].
  - constructor; [|constructor]. intros f R. vm_compute in R. injection R as <-. vm_compute. reflexivity.
  - assert (E : disassemble oc (debug_at 0x80000000) [0x20007fff] = Ok [ #"addi $zero, $zero, -0x7fff" ]) by (destruct oc; vm_compute; reflexivity).
    rewrite E in D. injection D as <-. destruct rt as [o2 ord]. vm_compute in A. injection A as <-. vm_compute in B. discriminate B.
Qed.
Lemma returns_by base w f os : read_word w = Some f -> field w 0 16 <> 32767 -> map (extract base w) (f_ops f) = os ->
  w = word f os -> Forall2 notation_fits (f_ops f) os -> text f os <> None -> returns base w.
Proof.
  intros R N <- E F T. split; [|split].
  - intros g R'. rewrite R in R'. injection R' as <-. exact E.
  - intros (g & R' & _ & N'). contradiction.
  - exists f. auto.
Qed.
Lemma C03_case_proof : Forall (returns 0x80000000) [0x27bdffe0; 0xafbf001c; 0x0c00a3f4; 0x46062082; 0x3c01ffff; 0x00000000].
Proof.
  repeat (constructor; [eapply returns_by; [vm_compute; reflexivity|vm_compute; discriminate|vm_compute; reflexivity
    |vm_compute; reflexivity| |vm_compute; discriminate];
    repeat (constructor; [split; [cbn; lia|cbn; try exact I; try lia]|]); constructor|]). constructor.
Qed.
