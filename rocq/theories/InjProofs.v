(** * InjProofs: canonical words have different texts (proofs only). *)

From Coq Require Import Lia.
From Verif Require Import Lib SpecIsa StrLemmas NumLemmas DecodeProofs DisasmProofs.

(** ** Texts and separators *)

Definition free_of (c : ascii) (s : str) : Prop := forall x, In x s -> x <> c.
Lemma free_of_cons c x s : free_of c (x :: s) <-> x <> c /\ free_of c s.
Proof.
  unfold free_of. cbn. split; [intros H; split; auto|]. intros [A B] y [<-|I]; auto.
Qed.
Lemma free_of_app c a b : free_of c (a ++ b) <-> free_of c a /\ free_of c b.
Proof.
  unfold free_of. split.
  - intros H. split; intros x I; apply H, in_or_app; auto.
  - intros [A B] x I. apply in_app_or in I as [I|I]; auto.
Qed.
Lemma free_ofb c s : forallb (fun x => negb (Ascii.eqb x c)) s = true -> free_of c s.
Proof.
  intros H x I ->. rewrite forallb_forall in H. specialize (H c I). now rewrite Ascii.eqb_refl in H.
Qed.
Lemma split_unique c a b a' b' : free_of c a -> free_of c a' -> a ++ c :: b = a' ++ c :: b' -> a = a' /\ b = b'.
Proof.
  revert a'. induction a as [|x a IH]; intros [|x' a'] F F' E; cbn in E.
  - injection E as ->. auto.
  - injection E as -> _. apply free_of_cons in F' as [F' _]. congruence.
  - injection E as -> _. apply free_of_cons in F as [F _]. congruence.
  - injection E as <- E. apply free_of_cons in F as [_ F]. apply free_of_cons in F' as [_ F'].
    destruct (IH a' F F' E) as [-> ->]. auto.
Qed.

Lemma join_inj ts : forall us, Forall (free_of ",") ts -> Forall (free_of ",") us -> ts <> [] -> us <> [] ->
  join #", " ts = join #", " us -> ts = us.
Proof.
  assert (NC : forall a b : str, free_of "," (a ++ #", " ++ b) -> False).
  { intros a b H. apply (H ","%char); [|reflexivity]. apply in_or_app. right. left. reflexivity. }
  induction ts as [|t [|t2 ts] IH]; intros us Ft Fu Nt Nu E; [congruence| |].
  - destruct us as [|u [|u2 us]]; [congruence|cbn in E; congruence|]. exfalso.
    change (t = u ++ #", " ++ join #", " (u2 :: us)) in E. inversion Ft; subst. eapply NC. eassumption.
  - destruct us as [|u [|u2 us]]; [congruence| |].
    + exfalso. change (t ++ #", " ++ join #", " (t2 :: ts) = u) in E. inversion Fu; subst. eapply NC. eassumption.
    + change (t ++ ","%char :: (" "%char :: join #", " (t2 :: ts))
              = u ++ ","%char :: (" "%char :: join #", " (u2 :: us))) in E.
      apply Forall_cons_iff in Ft as [Ft Ft']. apply Forall_cons_iff in Fu as [Fu Fu'].
      destruct (split_unique _ _ _ _ _ Ft Fu E) as [-> E']. f_equal.
      apply IH; try assumption; try discriminate. now injection E'.
Qed.

(** ** Operand texts *)

Lemma hex_free c n : 0 <= n < 2 ^ 64 -> ~ In c (lit "0123456789abcdefABCDEF") -> free_of c (hex n).
Proof.
  intros H N x I ->. apply N. apply digit_in_or with (r := 16); [|lia].
  assert (F := hex_digits n H). rewrite Forall_forall in F. auto.
Qed.
Lemma hexU_free c n : 0 <= n < 2 ^ 64 -> ~ In c (lit "0123456789abcdefABCDEF") -> free_of c (hexU n).
Proof.
  intros H N x I ->. apply N. apply digit_in_or with (r := 16); [|lia].
  assert (F := hexU_digits n H). rewrite Forall_forall in F. auto.
Qed.
Lemma prefix_free c p s : free_of c p -> free_of c s -> free_of c (p ++ s).
Proof. intros. now apply free_of_app. Qed.
Lemma signed_free c v : -32768 <= v < 32768 -> ~ In c (lit "-0123456789abcdefABCDEFx") -> free_of c (signed_text v).
Proof.
  intros H N. assert (N' : ~ In c (lit "0123456789abcdefABCDEF")).
  { intros I. apply N. cbn in *. tauto. }
  assert (N1 : free_of c #"-0x") by (intros x I ->; apply N; cbn in *; tauto).
  assert (N2 : free_of c #"0x") by (intros x I ->; apply N; cbn in *; tauto).
  unfold signed_text. destruct (v <? 0) eqn:E; apply prefix_free; try assumption;
    apply hex_free; try assumption; lia.
Qed.

Lemma signed_text_inj a b : -32768 <= a < 32768 -> -32768 <= b < 32768 ->
  signed_text a = signed_text b -> a = b.
Proof.
  intros A B. unfold signed_text.
  destruct (Z.ltb_spec a 0) as [La|La]; destruct (Z.ltb_spec b 0) as [Lb|Lb]; intros E.
  - apply app_inv_head in E. apply hex_inj in E; lia.
  - discriminate.
  - discriminate.
  - apply app_inv_head in E. apply hex_inj in E; lia.
Qed.

(** operands as they come out of words *)
Definition ranged (k : okind) (o : operand) : Prop :=
  match k, o with
  | Target26, OInt a => 0 <= a < 2 ^ 32
  | _, _ => fits k o
  end.
Lemma signed16_range v : 0 <= v < 65536 -> -32768 <= signed16 v < 32768.
Proof. unfold signed16. destruct (Z.ltb_spec v 32768); lia. Qed.
Lemma extract_ranged pc w k : is_word pc -> ranged k (extract pc w k).
Proof.
  intros [P1 P2]. destruct k; cbn [extract ranged fits];
    try (apply (field_range w _ 5); lia);
    try (apply (field_range w 0 16); lia);
    try (apply signed16_range; apply (field_range w 0 16); lia).
  - apply (field_range w 6 20); lia.
  - split; [apply signed16_range; apply (field_range w 0 16); lia|apply (field_range w 21 5); lia].
  - assert (F := field_range w 0 26 ltac:(lia)).
    assert (D := Z.div_mod pc (2 ^ 28) ltac:(lia)). assert (M := Z.mod_pos_bound pc (2 ^ 28) ltac:(lia)).
    assert (0 <= pc / 2 ^ 28) by (apply Z.div_pos; lia).
    assert (pc / 2 ^ 28 < 16) by (apply Z.div_lt_upper_bound; lia). lia.
Qed.

Definition distinct_table (l : list str) : bool :=
  forallb (fun i => forallb (fun j => Nat.eqb i j || negb (str_eqb (nth i l []) (nth j l []))) (seq 0 32)) (seq 0 32).
Lemma distinct_nth l i j : distinct_table l = true -> 0 <= i < 32 -> 0 <= j < 32 ->
  nth_name l i = nth_name l j -> i = j.
Proof.
  intros D I J E. unfold distinct_table in D. rewrite forallb_forall in D.
  specialize (D (Z.to_nat i)). rewrite forallb_forall in D.
  assert (Hi : In (Z.to_nat i) (seq 0 32)) by (apply in_seq; lia).
  assert (Hj : In (Z.to_nat j) (seq 0 32)) by (apply in_seq; lia).
  specialize (D Hi _ Hj). unfold nth_name in E. rewrite E in D. rewrite str_eqb_refl in D.
  cbn in D. rewrite orb_false_r in D. apply Nat.eqb_eq in D. lia.
Qed.
Lemma gpr_inj i j : 0 <= i < 32 -> 0 <= j < 32 -> nth_name gpr_names i = nth_name gpr_names j -> i = j.
Proof. apply distinct_nth. vm_compute. reflexivity. Qed.
Lemma fpr_inj i j : 0 <= i < 32 -> 0 <= j < 32 -> nth_name fpr_names i = nth_name fpr_names j -> i = j.
Proof. apply distinct_nth. vm_compute. reflexivity. Qed.
Lemma nth_free c l n : forallb (fun s => forallb (fun x => negb (Ascii.eqb x c)) s) l = true ->
  free_of c (nth_name l n).
Proof.
  intros H. apply free_ofb. unfold nth_name. destruct (@nth_in_or_default str (Z.to_nat n) l []) as [I|E]; [|now rewrite E].
  rewrite forallb_forall in H. auto.
Qed.
Lemma c0_inj i j t : num_assoc i cop0_names = Some t -> num_assoc j cop0_names = Some t -> i = j.
Proof.
  assert (K : forall l, forallb (fun p => forallb (fun q => (fst p =? fst q) || negb (str_eqb (snd p) (snd q))) l) l = true ->
     forall i j t, num_assoc i l = Some t -> num_assoc j l = Some t -> i = j).
  { intros l H a b u A B.
    assert (M : forall l n t, num_assoc n l = Some t -> In (n, t) l).
    { clear. induction l as [|[k v] l IH]; cbn; [discriminate|]. intros n t.
      destruct (Z.eqb_spec n k) as [->|]; [injection 1 as ->; auto|auto]. }
    apply M in A. apply M in B. rewrite forallb_forall in H. specialize (H _ A).
    rewrite forallb_forall in H. specialize (H _ B). cbn [fst snd] in H. rewrite str_eqb_refl in H.
    cbn in H. rewrite orb_false_r in H. now apply Z.eqb_eq in H. }
  apply K. vm_compute. reflexivity.
Qed.
Lemma c0_free c n t : forallb (fun p => forallb (fun x => negb (Ascii.eqb x c)) (snd p)) cop0_names = true ->
  num_assoc n cop0_names = Some t -> free_of c t.
Proof.
  intros H A. apply free_ofb.
  assert (M : forall l n t, num_assoc n l = Some t -> In (n, t) l).
  { clear. induction l as [|[k v] l IH]; cbn; [discriminate|]. intros n t.
    destruct (Z.eqb_spec n k) as [->|]; [injection 1 as ->; auto|auto]. }
  apply M in A. rewrite forallb_forall in H. apply (H _ A).
Qed.

Lemma some_inj2 {A} (a b : A) : Some a = Some b -> a = b.
Proof. congruence. Qed.

Lemma operand_text_inj k o1 o2 t : ranged k o1 -> ranged k o2 ->
  operand_text k o1 = Some t -> operand_text k o2 = Some t -> o1 = o2.
Proof.
  intros R1 R2 E1 E2. assert (E3 := E1). rewrite <- E1 in E2.
  destruct k; destruct o1 as [n1|v1|f1 b1]; cbn [ranged fits] in R1; try (now destruct R1);
    destruct o2 as [n2|v2|f2 b2]; cbn [ranged fits] in R2; try (now destruct R2);
    cbn [operand_text] in E2.
  - apply some_inj2, app_inv_head in E2. f_equal. symmetry. now apply gpr_inj.
  - apply some_inj2, app_inv_head in E2. f_equal. symmetry. now apply fpr_inj.
  - f_equal. cbn [operand_text] in E3. rewrite E3 in E2. eapply c0_inj; eassumption.
  - apply some_inj2, app_inv_head, hex_inj in E2; [congruence|lia|lia].
  - apply some_inj2, signed_text_inj in E2; [congruence|lia|lia].
  - apply some_inj2, app_inv_head, hex_inj in E2; [congruence|lia|lia].
  - apply some_inj2, app_inv_head, hex_inj in E2; [congruence|lia|lia].
  - apply some_inj2, app_inv_head, hex_inj in E2; [congruence|lia|lia].
  - apply some_inj2 in E2. 
    change (signed_text f2 ++ "("%char :: ("$"%char :: nth_name gpr_names b2 ++ #")")
            = signed_text f1 ++ "("%char :: ("$"%char :: nth_name gpr_names b1 ++ #")")) in E2.
    destruct R1 as [R1 S1]. destruct R2 as [R2 S2].
    apply split_unique in E2 as [A B].
    + injection B as B. apply app_inv_tail in B. apply signed_text_inj in A; [|lia|lia].
      apply gpr_inj in B; [congruence|lia|lia].
    + apply signed_free; [lia|]. cbn. intuition discriminate.
    + apply signed_free; [lia|]. cbn. intuition discriminate.
  - apply some_inj2, app_inv_head, hexU_inj in E2; [congruence|lia|lia].
  - apply some_inj2, signed_text_inj in E2; [congruence|lia|lia].
Qed.

Lemma operand_comma_free k o t : ranged k o -> operand_text k o = Some t -> free_of "," t.
Proof.
  intros R E.
  destruct k; destruct o as [n|v|f b]; cbn [ranged fits] in R; try (now destruct R);
    cbn [operand_text] in E; try (apply some_inj2 in E; subst t).
  - apply prefix_free; [apply free_ofb; reflexivity|]. apply nth_free. reflexivity.
  - apply prefix_free; [apply free_ofb; reflexivity|]. apply nth_free. reflexivity.
  - eapply c0_free; [|exact E]. reflexivity.
  - apply prefix_free; [apply free_ofb; reflexivity|]. apply hex_free; [lia|]. cbn; intuition discriminate.
  - apply signed_free; [lia|]. cbn; intuition discriminate.
  - apply prefix_free; [apply free_ofb; reflexivity|]. apply hex_free; [lia|]. cbn; intuition discriminate.
  - apply prefix_free; [apply free_ofb; reflexivity|]. apply hex_free; [lia|]. cbn; intuition discriminate.
  - apply prefix_free; [apply free_ofb; reflexivity|]. apply hex_free; [lia|]. cbn; intuition discriminate.
  - destruct R as [R S]. apply prefix_free; [apply signed_free; [lia|]; cbn; intuition discriminate|].
    apply prefix_free; [apply free_ofb; reflexivity|]. apply prefix_free; [apply free_ofb; reflexivity|].
    apply prefix_free; [apply nth_free; reflexivity|]. apply free_ofb; reflexivity.
  - apply prefix_free; [apply free_ofb; reflexivity|]. apply hexU_free; [lia|]. cbn; intuition discriminate.
  - apply signed_free; [lia|]. cbn; intuition discriminate.
Qed.

Lemma operands_text_spec ks os ts : operands_text ks os = Some ts ->
  List.length ks = List.length ts /\ List.length os = List.length ts.
Proof.
  revert os ts. induction ks as [|k ks IH]; intros [|o os] ts; cbn; try discriminate.
  - injection 1 as <-. auto.
  - destruct (operand_text k o); [|discriminate]. destruct (operands_text ks os) eqn:E; [|discriminate].
    injection 1 as <-. destruct (IH _ _ E). cbn. auto.
Qed.
Lemma operands_comma_free ks os ts : Forall2 ranged ks os -> operands_text ks os = Some ts -> Forall (free_of ",") ts.
Proof.
  intros H. revert ts. induction H as [|k o ks os R _ IH]; intros ts; cbn; [injection 1 as <-; constructor|].
  destruct (operand_text k o) eqn:E; [|discriminate]. destruct (operands_text ks os); [|discriminate].
  injection 1 as <-. constructor; [eapply operand_comma_free; eassumption|]. now apply IH.
Qed.
Lemma operands_text_inj ks os1 os2 ts : Forall2 ranged ks os1 -> Forall2 ranged ks os2 ->
  operands_text ks os1 = Some ts -> operands_text ks os2 = Some ts -> os1 = os2.
Proof.
  intros H. revert os2 ts. induction H as [|k o ks os R _ IH]; intros os2 ts H2; inversion H2; subst; [reflexivity|].
  cbn. destruct (operand_text k o) eqn:E; [|discriminate]. destruct (operands_text ks os) eqn:Es; [|discriminate].
  destruct (operand_text k y) eqn:E'; [|discriminate]. destruct (operands_text ks l') eqn:Es'; [|discriminate].
  intros A B. rewrite <- A in B. injection B as -> ->. f_equal.
  - eapply operand_text_inj; eassumption.
  - eapply IH; eauto.
Qed.
Lemma extract_ops_ranged pc w ks : is_word pc -> Forall2 ranged ks (map (extract pc w) ks).
Proof. intros P. induction ks; constructor; [now apply extract_ranged|assumption]. Qed.

(** ** Formats *)

Definition same_shape (f g : format) : bool :=
  str_eqb (f_name f) (f_name g) && Nat.eqb (List.length (f_ops f)) (List.length (f_ops g)).
Fixpoint distinct_formats (l : list format) : bool :=
  match l with
  | [] => true
  | f :: r => forallb (fun g => negb (same_shape f g)) r && distinct_formats r
  end.
Lemma distinct_formats_eq l f g : distinct_formats l = true -> In f l -> In g l ->
  f_name f = f_name g -> List.length (f_ops f) = List.length (f_ops g) -> f = g.
Proof.
  induction l as [|x l IH]; [intros _ []|]. cbn [distinct_formats]. rewrite andb_true_iff.
  intros [A B] [<-|F] [<-|G] N L; [reflexivity| | |now apply IH].
  - rewrite forallb_forall in A. specialize (A _ G). unfold same_shape in A.
    rewrite N, str_eqb_refl, L, Nat.eqb_refl in A. discriminate.
  - rewrite forallb_forall in A. specialize (A _ F). unfold same_shape in A.
    rewrite N, str_eqb_refl, L, Nat.eqb_refl in A. discriminate.
Qed.
Lemma isa_distinct : distinct_formats isa = true.
Proof. vm_compute. reflexivity. Qed.
Lemma isa_names : forallb (fun f => forallb (fun c => negb (Ascii.eqb c " ")) (f_name f)
                                    && negb (str_eqb (f_name f) #".word")) isa = true.
Proof. vm_compute. reflexivity. Qed.
Lemma isa_name f : In f isa -> free_of " " (f_name f) /\ f_name f <> #".word".
Proof.
  intros I. assert (H := isa_names). rewrite forallb_forall in H. specialize (H _ I).
  apply andb_true_iff in H as [A B]. split; [now apply free_ofb|].
  intros E. rewrite E in B. discriminate.
Qed.

Lemma text_cases f os t : text f os = Some t ->
  (f_ops f = [] /\ os = [] /\ t = f_name f)
  \/ exists ts, operands_text (f_ops f) os = Some ts /\ ts <> [] /\ t = f_name f ++ " "%char :: join #", " ts.
Proof.
  unfold text. destruct (operands_text (f_ops f) os) as [[|x ts]|] eqn:E; [| |discriminate].
  - injection 1 as <-. left. apply operands_text_spec in E as [A B].
    destruct (f_ops f), os; try discriminate. auto.
  - intros H. apply some_inj2 in H. right. exists (x :: ts). split; [reflexivity|]. split; [discriminate|].
    rewrite <- H. reflexivity.
Qed.

Lemma text_inj f g os1 os2 t : In f isa -> In g isa ->
  Forall2 ranged (f_ops f) os1 -> Forall2 ranged (f_ops g) os2 ->
  text f os1 = Some t -> text g os2 = Some t -> f = g /\ os1 = os2.
Proof.
  intros If Ig Rf Rg Tf Tg. destruct (isa_name f If) as [Nf _]. destruct (isa_name g Ig) as [Ng _].
  assert (NS : forall (a b c : str), free_of " " a -> b ++ " "%char :: c = a -> False).
  { intros a b c F <-. apply (F " "%char); [|reflexivity]. apply in_or_app. right. now left. }
  apply text_cases in Tf as [(A & -> & T)|(ts & A & A' & T)]; apply text_cases in Tg as [(B & -> & U)|(us & B & B' & U)].
  - subst t. split; [|reflexivity]. apply (distinct_formats_eq isa); auto using isa_distinct.
    now rewrite A, B.
  - exfalso. subst t. eapply NS; [exact Nf|]. symmetry. exact U.
  - exfalso. subst t. eapply NS; [exact Ng|]. exact U.
  - subst t. apply split_unique in U as [N J]; [|assumption|assumption].
    apply join_inj in J; [|exact (operands_comma_free _ _ _ Rf A)|exact (operands_comma_free _ _ _ Rg B)
                          |assumption|assumption]. subst us.
    assert (f = g).
    { apply (distinct_formats_eq isa); auto using isa_distinct.
      apply operands_text_spec in A. apply operands_text_spec in B. destruct A, B. congruence. }
    subst g. split; [reflexivity|]. eapply operands_text_inj; eassumption.
Qed.

Lemma read_word_in w f : read_word w = Some f -> In f isa.
Proof. unfold read_word. intros H. now apply find_some in H. Qed.

Lemma read_text_inj pc w1 w2 t : is_word pc -> is_word w1 -> is_word w2 ->
  canonical pc w1 -> canonical pc w2 -> read_text pc w1 = Some t -> read_text pc w2 = Some t -> w1 = w2.
Proof.
  intros P W1 W2 C1 C2. unfold read_text.
  destruct (read_word w1) as [f1|] eqn:R1; destruct (read_word w2) as [f2|] eqn:R2; intros T1 T2.
  - destruct (text_inj f1 f2 _ _ t (read_word_in _ _ R1) (read_word_in _ _ R2)
                (extract_ops_ranged pc w1 _ P) (extract_ops_ranged pc w2 _ P) T1 T2) as [<- E].
    rewrite (C1 _ R1), (C2 _ R2). now rewrite E.
  - exfalso. apply read_word_in, isa_name in R1 as [N1 N2]. apply some_inj2 in T2. subst t.
    change (#".word 0x" ++ zero_pad 8 (hex w2)) with (#".word" ++ " "%char :: (#"0x" ++ zero_pad 8 (hex w2))) in T1.
    apply text_cases in T1 as [(_ & _ & E)|(ts & _ & _ & E)].
    + apply (N1 " "%char); [|reflexivity]. rewrite <- E. apply in_or_app. right. now left.
    + apply split_unique in E as [E _]; [congruence|apply free_ofb; reflexivity|assumption].
  - exfalso. apply read_word_in, isa_name in R2 as [N1 N2]. apply some_inj2 in T1. subst t.
    change (#".word 0x" ++ zero_pad 8 (hex w1)) with (#".word" ++ " "%char :: (#"0x" ++ zero_pad 8 (hex w1))) in T2.
    apply text_cases in T2 as [(_ & _ & E)|(ts & _ & _ & E)].
    + apply (N1 " "%char); [|reflexivity]. rewrite <- E. apply in_or_app. right. now left.
    + apply split_unique in E as [E _]; [congruence|apply free_ofb; reflexivity|assumption].
  - apply some_inj2 in T1. apply some_inj2 in T2. subst t. apply app_inv_head in T2.
    destruct W1, W2. apply padded_hex_inj in T2; lia.
Qed.

(** ** Lines *)

Definition plain_word (pc w : Z) : Prop :=
  ~ reserved_tlb w /\ ~ largest_immediate w /\ exists t, read_text pc w = Some t.

Lemma line_is_text base w t : is_word w -> is_word base -> ~ reserved_tlb w -> ~ largest_immediate w ->
  read_text base w = Some t -> debug_inst (disasm_word base w) = Ok t.
Proof.
  intros W B N1 N2 T. assert (D := decode_all base w W B). unfold spec_line in D. unfold read_text in T.
  destruct (read_word w) as [f|] eqn:R.
  - apply D; [exact T|]. intros S E. apply N2. exists f. auto.
  - destruct D as [(A & C & I)|E].
    + exfalso. apply N1. split; auto.
    + rewrite E. unfold debug_inst. cbn [show_inst obind]. rewrite replace_all_space.
      apply some_inj2 in T. subst t. f_equal.
      assert (Z : no_ws (#"0x" ++ zero_pad 8 (hex w))).
      { apply no_ws_app. split; [reflexivity|]. apply zero_pad_no_ws, hex_no_ws. }
      change (op11 #".word") with (#".word" ++ #"      ").
      rewrite <- app_assoc. rewrite squeeze_no_ws_app by reflexivity.
      change (#".word 0x" ++ zero_pad 8 (hex w)) with (#".word" ++ (#" " ++ #"0x" ++ zero_pad 8 (hex w))).
      f_equal. rewrite squeeze_ws_app; [|discriminate|reflexivity|reflexivity]. now rewrite squeeze_no_ws.
Qed.
